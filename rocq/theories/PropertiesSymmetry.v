(** Rearranging the data, and combining, nesting and resampling interpolators, change the results of
    floating-point evaluation by no more than the rounding errors (C93, C94). *)
From Coq Require Import Reals Lra PeanoNat Bool Lia List Permutation.
From Flocq Require Import Core.Core IEEE754.BinarySingleNaN.
From Verif Require Import Base Ops RInst FInst ModelCore ModelLinear ModelCubic Spec SpecOrder SpecIEEE SpecError SpecReal Interpolators.
From Verif Require Import SpecApprox SpecExtrap SpecReach SpecCubicError SpecCubicReach SpecSplit SpecAgree FSymmetry.
From Verif Require Import GenLemmas FLemmas FProofs FProofs2 FError2 RChar ExampleData ExampleReal.
From Verif Require Import PropertiesFloat PropertiesError PropertiesCubicError PropertiesAgree PropertiesDyadic.
Import ListNotations.
Open Scope list_scope.
Open Scope R_scope.
Unset Implicit Arguments.

(** Throughout, [linear_run axes vals x e r] is the evaluation of any multilinear interpolator of
    the library in any number format, [e] its error bound and [r] its result (see SpecAgree). The
    two evaluations that are compared may use different implementations and formats. *)

(** * C93: reordering the axes together with the data, reflecting axes, changing the units and
    origins of the axes, fixing a coordinate at a node and using the slice of the data, and
    dropping the part of the grid the point is not in: each leaves the result unchanged but for the
    rounding errors of the two evaluations. *)
Theorem C93_linear_permuted :
  forall p axes axes' vals vals' x e e' r r',
  Permutation p (seq 0 (length axes)) -> linear_run axes vals x e r -> linear_run axes' vals' (permute 0 p x) e' r' ->
  same_grid (permute no_axis p axes) axes' ->
  (forall idx, in_shape (map npts axes) idx ->
     entry 0 (map npts (permute no_axis p axes)) vals' (permute 0%Z p idx) = entry 0 (map npts axes) vals idx) ->
  exists y y', r = Some y /\ r' = Some y' /\ Rabs (y - y') <= e + e'.
Proof. exact C93_proof_linear_permuted. Qed.
Theorem C93_cubic_permuted :
  forall lin p axes axes' vals vals' x e e' r r',
  Permutation p (seq 0 (length axes)) -> cubic_run lin axes vals x e r -> cubic_run lin axes' vals' (permute 0 p x) e' r' ->
  same_grid (permute no_axis p axes) axes' ->
  (forall idx, in_shape (map npts axes) idx ->
     entry 0 (map npts (permute no_axis p axes)) vals' (permute 0%Z p idx) = entry 0 (map npts axes) vals idx) ->
  exists y y', r = Some y /\ r' = Some y' /\ Rabs (y - y') <= e + e'.
Proof. exact C93_proof_cubic_permuted. Qed.
Theorem C93_linear_reflected :
  forall flips axes axes' vals vals' x x' e e' r r',
  linear_run axes vals x e r -> linear_run axes' vals' x' e' r' -> reflected_grid flips axes axes' x x' ->
  (forall idx, in_shape (map npts axes) idx ->
     entry 0 (map npts axes) vals' idx = entry 0 (map npts axes) vals (reflect_indices flips (map npts axes) idx)) ->
  exists y y', r = Some y /\ r' = Some y' /\ Rabs (y - y') <= e + e'.
Proof. exact C93_proof_linear_reflected. Qed.
Theorem C93_cubic_reflected :
  forall lin flips axes axes' vals vals' x x' e e' r r',
  cubic_run lin axes vals x e r -> cubic_run lin axes' vals' x' e' r' -> reflected_grid flips axes axes' x x' ->
  (forall idx, in_shape (map npts axes) idx ->
     entry 0 (map npts axes) vals' idx = entry 0 (map npts axes) vals (reflect_indices flips (map npts axes) idx)) ->
  exists y y', r = Some y /\ r' = Some y' /\ Rabs (y - y') <= e + e'.
Proof. exact C93_proof_cubic_reflected. Qed.
Theorem C93_linear_rescaled :
  forall st axes axes' vals x x' e e' r r',
  linear_run axes vals x e r -> linear_run axes' vals x' e' r' -> rescaled_grid st axes axes' x x' ->
  exists y y', r = Some y /\ r' = Some y' /\ Rabs (y - y') <= e + e'.
Proof. exact C93_proof_linear_rescaled. Qed.
Theorem C93_cubic_rescaled :
  forall lin st axes axes' vals x x' e e' r r',
  cubic_run lin axes vals x e r -> cubic_run lin axes' vals x' e' r' -> rescaled_grid st axes axes' x x' ->
  exists y y', r = Some y /\ r' = Some y' /\ Rabs (y - y') <= e + e'.
Proof. exact C93_proof_cubic_rescaled. Qed.
Theorem C93_linear_slice :
  forall a1 a a2 axes' x1 x2 i w s e e' r r',
  length x1 = length a1 -> length x2 = length a2 -> (0 <= i < npts a)%Z ->
  linear_run (a1 ++ a :: a2) w (x1 ++ coord a i :: x2) e r -> linear_run axes' s (x1 ++ x2) e' r' -> same_grid (a1 ++ a2) axes' ->
  slice_data (map npts a1) (npts a) (map npts a2) i w s ->
  exists y y', r = Some y /\ r' = Some y' /\ Rabs (y - y') <= e + e'.
Proof. exact C93_proof_linear_slice. Qed.
Theorem C93_cubic_slice :
  forall lin a1 a a2 axes' x1 x2 i w s e e' r r',
  length x1 = length a1 -> length x2 = length a2 -> (0 <= i < npts a)%Z ->
  cubic_run lin (a1 ++ a :: a2) w (x1 ++ coord a i :: x2) e r -> cubic_run lin axes' s (x1 ++ x2) e' r' -> same_grid (a1 ++ a2) axes' ->
  slice_data (map npts a1) (npts a) (map npts a2) i w s ->
  exists y y', r = Some y /\ r' = Some y' /\ Rabs (y - y') <= e + e'.
Proof. exact C93_proof_cubic_slice. Qed.
Theorem C93_linear_crop :
  forall los axes axes' vals vals' x e e' r r',
  linear_run axes vals x e r -> linear_run axes' vals' x e' r' ->
  crop_grid los axes axes' -> crop_data los (map npts axes) (map npts axes') vals vals' -> inside_crop 0 los axes axes' x ->
  exists y y', r = Some y /\ r' = Some y' /\ Rabs (y - y') <= e + e'.
Proof. exact C93_proof_linear_crop. Qed.
Theorem C93_cubic_crop :
  forall lin los axes axes' vals vals' x e e' r r',
  cubic_run lin axes vals x e r -> cubic_run lin axes' vals' x e' r' ->
  crop_grid los axes axes' -> crop_data los (map npts axes) (map npts axes') vals vals' -> inside_crop 1 los axes axes' x ->
  exists y y', r = Some y /\ r' = Some y' /\ Rabs (y - y') <= e + e'.
Proof. exact C93_proof_cubic_crop. Qed.

(** ** Examples: integer data in f64 *)
Lemma z64_real n : (Z.abs n <= 1000)%Z -> is_finite (z64 n) = true /\ B2R (z64 n) = IZR n.
Proof.
  intros H. assert (C := binary_normalize_correct 53 1024 Hp64 He64 mode_NE n 0 false).
  assert (E : F2R (Float radix2 n 0) = IZR n) by (unfold F2R; simpl; ring).
  assert (G : generic_format radix2 (SpecFloat.fexp 53 1024) (IZR n)).
  { apply (@generic_format_FLT radix2 (3 - 1024 - 53) 53). exists (Float radix2 n 0); [symmetry; exact E| |]; simpl; lia. }
  cbv zeta in C. rewrite E in C.
  assert (Q : round radix2 (SpecFloat.fexp 53 1024) (round_mode mode_NE) (IZR n) = IZR n) by (apply round_generic; [apply valid_rnd_N|exact G]).
  rewrite Q in C.
  rewrite Rlt_bool_true in C; [exact (conj (proj1 (proj2 C)) (proj1 C))|].
  rewrite <- abs_IZR. apply Rle_lt_trans with (IZR 1024); [apply IZR_le; lia|].
  change (IZR 1024) with (bpow radix2 10). apply bpow_lt. lia.
Qed.
Definition small (n : Z) : Prop := (Z.abs n <= 1000)%Z.
Lemma z64_reals l : Forall small l -> map B2R (map z64 l) = map IZR l.
Proof. intros H. induction H as [|n l Hn H IH]; simpl; auto. rewrite IH. f_equal. apply z64_real, Hn. Qed.
Lemma z64_grids g : Forall (Forall small) g -> map (map B2R) (map (map z64) g) = map (map IZR) g.
Proof. intros H. induction H as [|n l Hn H IH]; simpl; auto. rewrite IH. f_equal. apply z64_reals, Hn. Qed.
Lemma z64_mod n : small n -> @moderate 53 1024 (z64 n).
Proof.
  intros H. destruct (z64_real n H) as (F & E). apply moderate_small; [exact F|]. rewrite E.
  assert (-1000 <= n <= 1000)%Z by (unfold small in H; lia). split; apply IZR_le; lia.
Qed.
(** The flattened interpolator on a rectilinear grid with integer nodes and values. *)
Definition ev (g : list (list Z)) (v x : list Z) : outcome f64 :=
  match mlc_new F64Ops plain (map (map z64) g) (map z64 v) with
  | Ok s => mlc_interp_one F64Ops plain s (map z64 x)
  | _ => Panic
  end.
Definition iaxes (g : list (list Z)) : list axis := rect_axes (map (map IZR) g).
Definition run_is (g : list (list Z)) (v x : list Z) : Prop :=
  linear_run (iaxes g) (map IZR v) (map IZR x) (rectilinear_error 53 1024 (length g) 32) (number_of (ev g v x)).
Definition run_at (g : list (list Z)) (v x : list Z) : Prop :=
  exists e, 0 <= e <= / 1000000000000 /\ linear_run (iaxes g) (map IZR v) (map IZR x) e (number_of (ev g v x)).
Lemma err64 n : (n = 1 \/ n = 2)%nat -> 0 <= rectilinear_error 53 1024 n 32 <= / 1000000000000.
Proof.
  intros Hn. assert (U0 : 0 <= roundoff 53) by apply bpow_ge_0.
  assert (W0 : 0 <= underflow 53 1024) by (unfold underflow; assert (Q := bpow_ge_0 radix2 (3 - 1024 - 53)); lra).
  unfold rectilinear_error. destruct Hn as [-> | ->]; simpl INR; assert (Q := err_small 1024 ltac:(lra)); lra.
Qed.
Lemma is_at g v x : (length g = 1 \/ length g = 2)%nat -> run_is g v x -> run_at g v x.
Proof. intros L R. exists (rectilinear_error 53 1024 (length g) 32). split; [apply err64, L|exact R]. Qed.
Lemma run64 g v x : (length g = 1 \/ length g = 2)%nat -> Forall (Forall small) g -> Forall (fun n => (Z.abs n <= 32)%Z) v -> Forall small x ->
  rect_input plain (map (map z64) g) (map z64 v) -> is_ok (mlc_new F64Ops plain (map (map z64) g) (map z64 v)) = true ->
  Forall (increasing_grid F64Ops) (map (map z64) g) -> SpecReal.inside_grid (iaxes g) (map IZR x) ->
  run_is g v x.
Proof.
  intros Lg Sg Sv Sx I N Hi Hx. destruct (is_ok_ex _ N) as (s & E).
  assert (Sv' : Forall small v) by (eapply Forall_impl; [|exact Sv]; intros n Hn; unfold small; simpl in Hn; lia).
  assert (U := roundoff_64). unfold run_is, iaxes.
  rewrite <- (z64_grids g Sg), <- (z64_reals v Sv'), <- (z64_reals x Sx). unfold ev. rewrite E.
  rewrite <- (map_length (map z64) g).
    apply (linear_run_rectilinear 53 1024 Hp64 He64 plain (map (map z64) g) (map z64 v)).
    + apply float_rectilinear_flat; assumption.
    + exact Hi.
    + apply Forall_map. eapply Forall_impl; [|exact Sg]. intros l Hl. apply Forall_map. eapply Forall_impl; [|exact Hl]. apply z64_mod.
    + apply Forall_map. eapply Forall_impl; [|exact Sx]. intros n Hn. apply z64_real, Hn.
    + rewrite (z64_grids g Sg), (z64_reals x Sx). exact Hx.
    + split.
      * split; [lra|]. apply Rle_trans with (bpow radix2 5); [simpl; lra|]. apply bpow_le. lia.
      * apply Forall_map. eapply Forall_impl; [|exact Sv]. intros n Hn. simpl in Hn. destruct (z64_real n ltac:(lia)) as (F & En).
        split; [exact F|]. rewrite En, <- abs_IZR. apply IZR_le. lia.
    + rewrite map_length. destruct Lg as [-> | ->]; simpl INR; lra.
Qed.
Ltac smalls := repeat (apply Forall_cons; [first [unfold small; vm_compute; discriminate|smalls]|]); apply Forall_nil.
Ltac each_axis1 := let k := fresh in let a := fresh in let Ha := fresh in
  intros k a Ha; destruct k as [|k]; [injection Ha as <-|destruct k; discriminate]; simpl.
Ltac is_run := apply run64; [first [left; reflexivity|right; reflexivity]|smalls|smalls|smalls|rect_ok|vm_compute; reflexivity
  |cbn [map]; repeat (constructor; [inc_grid|]); constructor|split; [reflexivity|]; first [each_axis2; lra|each_axis1; lra]].
Ltac run := apply is_at; [first [left; reflexivity|right; reflexivity]|is_run].
Definition g0 : list (list Z) := [[0; 2; 4]; [0; 4]]%Z.
Definition v0 : list Z := [1; 3; 3; 5; 9; 13]%Z.
Lemma run_0 : run_at g0 v0 [3; 1]%Z. Proof. run. Qed.
Lemma run_perm : run_at [[0; 4]; [0; 2; 4]]%Z [1; 3; 9; 3; 5; 13]%Z [1; 3]%Z. Proof. run. Qed.
Lemma run_refl : run_at [[-4; -2; 0]; [0; 4]]%Z [9; 13; 3; 5; 1; 3]%Z [-3; 1]%Z. Proof. run. Qed.
Lemma run_unit : run_at [[1; 21; 41]; [0; 4]]%Z v0 [31; 1]%Z. Proof. run. Qed.
Lemma run_node : run_at g0 v0 [2; 1]%Z. Proof. run. Qed.
Lemma run_slice : run_at [[0; 4]]%Z [3; 5]%Z [1]%Z. Proof. run. Qed.
Lemma run_crop : run_at [[2; 4]; [0; 4]]%Z [3; 5; 9; 13]%Z [3; 1]%Z. Proof. run. Qed.
Definition near (a b : outcome f64) : Prop :=
  exists y y', number_of a = Some y /\ number_of b = Some y' /\ Rabs (y - y') <= / 100000000000.
Lemma near_by a b e e' : 0 <= e <= / 1000000000000 -> 0 <= e' <= / 1000000000000 ->
  (exists y y', number_of a = Some y /\ number_of b = Some y' /\ Rabs (y - y') <= e + e') -> near a b.
Proof. intros H H' (y & y' & E & E' & B). exists y, y'. split; [exact E|]. split; [exact E'|]. lra. Qed.
Ltac nodes i := match goal with H : (0 <= i < _)%Z |- _ => simpl in H; unfold zlen in H; simpl in H end;
  let E := fresh in first
  [assert (E : (i = 0 \/ i = 1)%Z) by lia; destruct E as [-> | ->]
  |assert (E : (i = 0 \/ i = 1 \/ i = 2)%Z) by lia; destruct E as [-> | [-> | ->]]
  |assert (E : (i = 0 \/ i = 1 \/ i = 2 \/ i = 3 \/ i = 4)%Z) by lia; destruct E as [-> | [-> | [-> | [-> | ->]]]]].
Ltac two_indices := let idx := fresh in let Hi := fresh in intros idx Hi; inversion Hi as [|? i ? ? Hi0 Hi']; subst;
  inversion Hi' as [|? j ? ? Hj0 Hj']; subst; inversion Hj'; subst; nodes i; nodes j.
Example C93_permuted_ex : near (ev g0 v0 [3; 1]%Z) (ev [[0; 4]; [0; 2; 4]]%Z [1; 3; 9; 3; 5; 13]%Z [1; 3]%Z).
Proof.
  destruct run_0 as (e & He & R), run_perm as (e' & He' & R'). apply (near_by _ _ e e' He He').
  apply (C93_linear_permuted [1; 0]%nat (iaxes g0) (iaxes [[0; 4]; [0; 2; 4]]%Z) (map IZR v0) (map IZR [1; 3; 9; 3; 5; 13]%Z) [3; 1] e e' _ _ (perm_swap 0%nat 1%nat []) R R').
  - apply FSymmetry.same_grid_refl.
  - two_indices; reflexivity.
Qed.
Example C93_reflected_ex : near (ev g0 v0 [3; 1]%Z) (ev [[-4; -2; 0]; [0; 4]]%Z [9; 13; 3; 5; 1; 3]%Z [-3; 1]%Z).
Proof.
  destruct run_0 as (e & He & R), run_refl as (e' & He' & R'). apply (near_by _ _ e e' He He').
  apply (C93_linear_reflected [true; false] _ _ _ _ _ _ _ _ _ _ R R').
  - simpl. unfold reflected_axis, same_axis. simpl. repeat split; try lra; intros i Hi; nodes i; simpl; lra.
  - two_indices; reflexivity.
Qed.
(** The first axis in tenths, with the origin moved by 1. *)
Example C93_rescaled_ex : near (ev g0 v0 [3; 1]%Z) (ev [[1; 21; 41]; [0; 4]]%Z v0 [31; 1]%Z).
Proof.
  destruct run_0 as (e & He & R), run_unit as (e' & He' & R'). apply (near_by _ _ e e' He He').
  apply (C93_linear_rescaled [(10, 1); (1, 0)] _ _ _ _ _ _ _ _ _ R R').
  simpl. unfold rescaled_axis. simpl. repeat split; try lra; intros i Hi; nodes i; simpl; lra.
Qed.
Example C93_slice_ex : near (ev g0 v0 [2; 1]%Z) (ev [[0; 4]]%Z [3; 5]%Z [1]%Z).
Proof.
  destruct run_node as (e & He & R), run_slice as (e' & He' & R'). apply (near_by _ _ e e' He He').
  apply (C93_linear_slice [] (list_axis (map IZR [0; 2; 4]%Z)) (iaxes [[0; 4]]%Z) (iaxes [[0; 4]]%Z) [] [1] 1 (map IZR v0) (map IZR [3; 5]%Z) e e' _ _
    eq_refl eq_refl (conj (Z.le_0_1) (eq_refl Lt)) R R').
  - apply FSymmetry.same_grid_refl.
  - intros i j Hi Hj. inversion Hi; subst. inversion Hj as [|? k ? ? Hk Hj']; subst. inversion Hj'; subst. nodes k; reflexivity.
Qed.
Example C93_crop_ex : near (ev g0 v0 [3; 1]%Z) (ev [[2; 4]; [0; 4]]%Z [3; 5; 9; 13]%Z [3; 1]%Z).
Proof.
  destruct run_0 as (e & He & R), run_crop as (e' & He' & R'). apply (near_by _ _ e e' He He').
  apply (C93_linear_crop [1; 0]%Z _ _ _ _ _ _ _ _ _ R R').
  - split; [reflexivity|]. split; [reflexivity|]. intros [|[|k]] a b Ha Hb; [| |destruct k; discriminate];
      injection Ha as <-; injection Hb as <-; (split; [simpl; lia|split; [vm_compute; discriminate|]]); intros i Hi; nodes i; simpl; lra.
  - two_indices; reflexivity.
  - split; [reflexivity|]. intros [|[|k]] a b Ha Hb; [| |destruct k; discriminate];
      injection Ha as <-; injection Hb as <-; simpl; unfold zlen; simpl; split; first [left; reflexivity|right; lra].
Qed.
Print Assumptions C93_linear_permuted.
Print Assumptions C93_cubic_permuted.
Print Assumptions C93_linear_reflected.
Print Assumptions C93_cubic_reflected.
Print Assumptions C93_linear_rescaled.
Print Assumptions C93_cubic_rescaled.
Print Assumptions C93_linear_slice.
Print Assumptions C93_cubic_slice.
Print Assumptions C93_linear_crop.
Print Assumptions C93_cubic_crop.

(** * C94: the result for a linear combination of two data sets is the combination of the results,
    up to rounding; [d] allows for rounding of the combined data itself. *)
Theorem C94_linear_superposition :
  forall a b axes axes1 axes2 u v w x e e1 e2 r r1 r2 d,
  linear_run axes w x e r -> linear_run axes1 u x e1 r1 -> linear_run axes2 v x e2 r2 ->
  same_grid axes axes1 -> same_grid axes axes2 -> values_within d w (combination a b u v) ->
  exists y y1 y2, r = Some y /\ r1 = Some y1 /\ r2 = Some y2 /\
    Rabs (y - (a * y1 + b * y2)) <= e + Rabs a * e1 + Rabs b * e2 + reach_factor axes x * d.
Proof. exact C94_proof_linear_superposition. Qed.
Theorem C94_cubic_superposition :
  forall lin rho a b axes axes1 axes2 u v w x e e1 e2 r r1 r2 d,
  cubic_run lin axes w x e r -> cubic_run lin axes1 u x e1 r1 -> cubic_run lin axes2 v x e2 r2 ->
  same_grid axes axes1 -> same_grid axes axes2 -> values_within d w (combination a b u v) -> (forall a, In a axes -> spacing_ratio_at_most a rho) ->
  exists y y1 y2, r = Some y /\ r1 = Some y1 /\ r2 = Some y2 /\
    Rabs (y - (a * y1 + b * y2)) <= e + Rabs a * e1 + Rabs b * e2 + prod_upto (length axes) (fun k => cubic_reach_gain lin rho (outside_by axes x k)) * d.
Proof. exact C94_proof_cubic_superposition. Qed.
(** Interpolating along the axes [a1] first, storing the results at the nodes of the other axes, and
    then along [a2]: [w2] holds the stored results, [d] allows for rounding them to a shorter format. *)
Theorem C94_linear_nested :
  forall a1 a2 axes2 x1 x2 w w2 e e1 e2 r r2 d,
  length x1 = length a1 -> length x2 = length a2 ->
  linear_run (a1 ++ a2) w (x1 ++ x2) e r -> linear_run axes2 w2 x2 e2 r2 -> same_grid a2 axes2 ->
  (forall j, in_shape (map npts a2) j -> exists axes1 u y1, linear_run axes1 u x1 e1 (Some y1) /\ same_grid a1 axes1 /\
     block_data (map npts a1) (map npts a2) j w u /\ Rabs (y1 - entry 0 (map npts a2) w2 j) <= d) ->
  exists y y2, r = Some y /\ r2 = Some y2 /\ Rabs (y - y2) <= e + e2 + reach_factor a2 x2 * (e1 + d).
Proof. exact C94_proof_linear_nested. Qed.
Theorem C94_cubic_nested :
  forall lin rho a1 a2 axes2 x1 x2 w w2 e e1 e2 r r2 d,
  length x1 = length a1 -> length x2 = length a2 ->
  cubic_run lin (a1 ++ a2) w (x1 ++ x2) e r -> cubic_run lin axes2 w2 x2 e2 r2 -> same_grid a2 axes2 ->
  (forall j, in_shape (map npts a2) j -> exists axes1 u y1, cubic_run lin axes1 u x1 e1 (Some y1) /\ same_grid a1 axes1 /\
     block_data (map npts a1) (map npts a2) j w u /\ Rabs (y1 - entry 0 (map npts a2) w2 j) <= d) -> (forall a, In a a2 -> spacing_ratio_at_most a rho) ->
  exists y y2, r = Some y /\ r2 = Some y2 /\ Rabs (y - y2) <= e + e2 + prod_upto (length a2) (fun k => cubic_reach_gain lin rho (outside_by a2 x2 k)) * (e1 + d).
Proof. exact C94_proof_cubic_nested. Qed.
(** Filling a finer grid with the computed results of a multilinear interpolator. *)
Theorem C94_resample :
  forall axes axes' vals vals' x e e' en r r' d,
  linear_run axes vals x e r -> linear_run axes' vals' x e' r' -> Forall2 refines axes axes' ->
  (forall idx, in_shape (map npts axes') idx -> exists axesn yn, linear_run axesn vals (node_pos axes' idx) en (Some yn) /\
     same_grid axes axesn /\ Rabs (yn - entry 0 (map npts axes') vals' idx) <= d) ->
  exists y y', r = Some y /\ r' = Some y' /\ Rabs (y - y') <= e + e' + reach_factor axes' x * (en + d).
Proof. exact C94_proof_resample. Qed.

(** Data set 0 doubled, less a second one. *)
Definition v1 : list Z := [1; 1; 2; 0; 1; 3]%Z.
Definition v2 : list Z := [1; 5; 4; 10; 17; 23]%Z.
Lemma run_1 : run_at g0 v1 [3; 1]%Z. Proof. run. Qed.
Lemma run_2 : run_at g0 v2 [3; 1]%Z. Proof. run. Qed.
Example C94_superposition_ex : exists y y1 y2, number_of (ev g0 v2 [3; 1]%Z) = Some y /\
  number_of (ev g0 v0 [3; 1]%Z) = Some y1 /\ number_of (ev g0 v1 [3; 1]%Z) = Some y2 /\
  Rabs (y - (2 * y1 + -1 * y2)) <= / 100000000000.
Proof.
  destruct run_2 as (e & He & R), run_0 as (e1 & He1 & R1), run_1 as (e2 & He2 & R2).
  destruct (C94_linear_superposition 2 (-1) _ _ _ _ _ _ _ _ _ _ _ _ _ 0 R R1 R2 (FSymmetry.same_grid_refl _) (FSymmetry.same_grid_refl _))
    as (y & y1 & y2 & E & E1 & E2 & B).
  { unfold v2, combination. simpl. repeat (apply Forall2_cons; [apply Rabs_le; lra|]). apply Forall2_nil. }
  exists y, y1, y2. split; [exact E|]. split; [exact E1|]. split; [exact E2|].
  rewrite (Rabs_right 2), (Rabs_left (-1)) in B by lra. lra.
Qed.

(** Results that are whole numbers. *)
Lemma whole_result g v x n : (Z.abs n <= 1000)%Z -> ok_is (ev g v x) (z64 n) = true -> number_of (ev g v x) = Some (IZR n).
Proof.
  intros Hn Q. destruct (z64_real n Hn) as (F & E). destruct (ev g v x) as [y| |] eqn:Ey; try discriminate.
  unfold number_of. assert (Fy : is_finite y = true).
  { unfold ok_is in Q. destruct y; try reflexivity; destruct (z64 n); try discriminate F; destruct s; discriminate Q. }
  rewrite Fy. f_equal. apply (lit_value y (z64 n)); auto.
Qed.
Lemma run_some g v x n : (Z.abs n <= 1000)%Z -> ok_is (ev g v x) (z64 n) = true -> run_is g v x ->
  linear_run (iaxes g) (map IZR v) (map IZR x) (rectilinear_error 53 1024 (length g) 32) (Some (IZR n)).
Proof. intros Hn Q R. unfold run_is in R. rewrite (whole_result g v x n Hn Q) in R. exact R. Qed.
Ltac some_run := apply run_some; [vm_compute; discriminate|vm_compute; reflexivity|is_run].
(** Along the first axis at 3, then along the second at 1. *)
Lemma run_last : run_at [[0; 4]]%Z [6; 9]%Z [1]%Z. Proof. run. Qed.
Lemma dist0 r : Rabs (r - r) <= 0.
Proof. rewrite Rminus_diag_eq, Rabs_R0 by reflexivity. lra. Qed.
Lemma no_over a x : coord a 0 <= x -> x <= coord a (npts a - 1) -> 0 < spacing a 0 -> 0 < spacing a (npts a - 2) -> overshoot a x = 0.
Proof.
  intros H0 H1 G0 G1. unfold overshoot. apply Rmax_left. assert (I0 := Rinv_0_lt_compat _ G0). assert (I1 := Rinv_0_lt_compat _ G1).
  apply Rmax_lub; unfold Rdiv; nra.
Qed.
Example C94_nested_ex : near (ev g0 v0 [3; 1]%Z) (ev [[0; 4]]%Z [6; 9]%Z [1]%Z).
Proof.
  destruct run_0 as (e & He & R), run_last as (e2 & He2 & R2). assert (H1 := err64 1 (or_introl eq_refl)).
  assert (F : reach_factor (iaxes [[0; 4]]%Z) [1] = 1).
  { unfold reach_factor, prod_upto, outside_by. cbn [length iaxes rect_axes map seq fold_right nth].
    rewrite !no_over by (unfold spacing; simpl; lra). lra. }
  destruct (C94_linear_nested (iaxes [[0; 2; 4]]%Z) (iaxes [[0; 4]]%Z) (iaxes [[0; 4]]%Z) [3] [1] (map IZR v0) (map IZR [6; 9]%Z)
    e (rectilinear_error 53 1024 1 32) e2 _ _ 0 eq_refl eq_refl R R2 (FSymmetry.same_grid_refl _)) as (y & y2 & E & E2 & B).
  - intros j Hj. inversion Hj as [|? k ? ? Hk Hj']; subst. inversion Hj'; subst. nodes k.
    + exists (iaxes [[0; 2; 4]]%Z), (map IZR [1; 3; 9]%Z), 6. split; [apply (run_some [[0; 2; 4]]%Z [1; 3; 9]%Z [3]%Z 6); [vm_compute; discriminate|vm_compute; reflexivity|is_run]|].
      split; [apply FSymmetry.same_grid_refl|]. split; [|apply dist0].
      intros i Hi. inversion Hi as [|? l ? ? Hl Hi']; subst. inversion Hi'; subst. nodes l; reflexivity.
    + exists (iaxes [[0; 2; 4]]%Z), (map IZR [3; 5; 13]%Z), 9. split; [apply (run_some [[0; 2; 4]]%Z [3; 5; 13]%Z [3]%Z 9); [vm_compute; discriminate|vm_compute; reflexivity|is_run]|].
      split; [apply FSymmetry.same_grid_refl|]. split; [|apply dist0].
      intros i Hi. inversion Hi as [|? l ? ? Hl Hi']; subst. inversion Hi'; subst. nodes l; reflexivity.
  - exists y, y2. split; [exact E|]. split; [exact E2|]. rewrite F in B. lra.
Qed.
(** The first axis refined to 0, 1, 2, 3, 4. *)
Definition fine_grid : list (list Z) := [[0; 1; 2; 3; 4]; [0; 4]]%Z.
Definition fine_values : list Z := [1; 3; 2; 4; 3; 5; 6; 9; 9; 13]%Z.
Lemma run_fine : run_at fine_grid fine_values [3; 1]%Z. Proof. run. Qed.
Example C94_resample_ex : near (ev g0 v0 [3; 1]%Z) (ev fine_grid fine_values [3; 1]%Z).
Proof.
  destruct run_0 as (e & He & R), run_fine as (e' & He' & R'). assert (H2 := err64 2 (or_intror eq_refl)).
  assert (F : reach_factor (iaxes fine_grid) [3; 1] = 1).
  { unfold reach_factor, prod_upto, outside_by. cbn [length iaxes rect_axes map seq fold_right nth fine_grid].
    rewrite !no_over by (unfold spacing; simpl; lra). lra. }
  destruct (C94_resample (iaxes g0) (iaxes fine_grid) (map IZR v0) (map IZR fine_values) [3; 1] e e' (rectilinear_error 53 1024 2 32) _ _ 0 R R') as (y & y' & E & E' & B).
  - apply Forall2_cons; [|apply Forall2_cons; [|apply Forall2_nil]]; intros i Hi; simpl in Hi; unfold zlen in Hi; simpl in Hi; [|lia].
    assert (i = 1%Z) by lia. subst i. exists 2%Z. simpl. unfold zlen. simpl. split; [lia|reflexivity].
  - intros idx Hi. inversion Hi as [|? i ? ? Hi0 Hi']; subst. inversion Hi' as [|? j ? ? Hj0 Hj']; subst. inversion Hj'; subst.
    exists (iaxes g0), (entry 0 (map npts (iaxes fine_grid)) (map IZR fine_values) [i; j]).
    split; [|split; [apply FSymmetry.same_grid_refl|apply dist0]].
    nodes i; nodes j.
    + apply (run_some g0 v0 [0; 0]%Z 1); [vm_compute; discriminate|vm_compute; reflexivity|is_run].
    + apply (run_some g0 v0 [0; 4]%Z 3); [vm_compute; discriminate|vm_compute; reflexivity|is_run].
    + apply (run_some g0 v0 [1; 0]%Z 2); [vm_compute; discriminate|vm_compute; reflexivity|is_run].
    + apply (run_some g0 v0 [1; 4]%Z 4); [vm_compute; discriminate|vm_compute; reflexivity|is_run].
    + apply (run_some g0 v0 [2; 0]%Z 3); [vm_compute; discriminate|vm_compute; reflexivity|is_run].
    + apply (run_some g0 v0 [2; 4]%Z 5); [vm_compute; discriminate|vm_compute; reflexivity|is_run].
    + apply (run_some g0 v0 [3; 0]%Z 6); [vm_compute; discriminate|vm_compute; reflexivity|is_run].
    + apply (run_some g0 v0 [3; 4]%Z 9); [vm_compute; discriminate|vm_compute; reflexivity|is_run].
    + apply (run_some g0 v0 [4; 0]%Z 9); [vm_compute; discriminate|vm_compute; reflexivity|is_run].
    + apply (run_some g0 v0 [4; 4]%Z 13); [vm_compute; discriminate|vm_compute; reflexivity|is_run].
  - exists y, y'. split; [exact E|]. split; [exact E'|]. rewrite F in B. lra.
Qed.

(** ** Cubic: an evenly spaced grid with integer nodes and values, in f64. *)
Definition cev (lin : bool) (g : list (list Z)) (v x : list Z) : outcome f64 :=
  match mcc_new F64Ops plain (map (map z64) g) (map z64 v) lin with
  | Ok s => mcc_interp_one F64Ops plain s (map z64 x)
  | _ => Panic
  end.
Definition cerr (n : nat) : R := cubic_error 53 1024 (cubic_gain 1) (rectilinear_gamma 53 1) n 32.
Definition crun (lin : bool) (g : list (list Z)) (v x : list Z) : Prop :=
  cubic_run lin (iaxes g) (map IZR v) (map IZR x) (cerr (length g)) (number_of (cev lin g v x)).
Lemma crun64 lin g v x : (length g = 1 \/ length g = 2)%nat -> Forall (Forall small) g -> Forall (fun n => (Z.abs n <= 32)%Z) v -> Forall small x ->
  rect_input plain (map (map z64) g) (map z64 v) -> is_ok (mcc_new F64Ops plain (map (map z64) g) (map z64 v) lin) = true ->
  Forall (increasing_grid F64Ops) (map (map z64) g) -> SpecReal.inside_grid (iaxes g) (map IZR x) ->
  Forall (fun a => spacing_ratio_at_most a 1) (iaxes g) -> crun lin g v x.
Proof.
  intros Lg Sg Sv Sx I N Hi Hx Hr. destruct (is_ok_ex _ N) as (s & E).
  assert (Sv' : Forall small v) by (eapply Forall_impl; [|exact Sv]; intros n Hn; unfold small; simpl in Hn; lia).
  assert (U := roundoff_64). assert (U0 : 0 <= roundoff 53) by apply bpow_ge_0. unfold crun, cerr, iaxes in *.
  rewrite <- (z64_grids g Sg), <- (z64_reals v Sv'), <- (z64_reals x Sx) in *. unfold cev. rewrite E.
  rewrite <- (map_length (map z64) g).
  apply (cubic_run_rectilinear lin 53 1024 Hp64 He64 plain (map (map z64) g) (map z64 v)).
  - apply float_cubic_rectilinear_flat; assumption.
  - exact Hi.
  - apply Forall_map. eapply Forall_impl; [|exact Sg]. intros l Hl. apply Forall_map. eapply Forall_impl; [|exact Hl]. apply z64_mod.
  - apply Forall_map. eapply Forall_impl; [|exact Sx]. intros n Hn. apply z64_real, Hn.
  - exact Hx.
  - lra.
  - exact Hr.
  - rewrite map_length. split; [lra|]. split.
    + replace (cubic_gain 1) with (5 / 4) by (unfold cubic_gain; field).
      apply Rle_trans with (bpow radix2 13); [|apply bpow_le; lia]. unfold rectilinear_gamma.
      apply Rle_trans with (3 ^ length g * (1 * (32 + 1))); [|destruct Lg as [-> | ->]; simpl; lra].
      apply Rmult_le_compat_r; [lra|]. apply pow_incr. lra.
    + apply Forall_map. eapply Forall_impl; [|exact Sv]. intros n Hn. simpl in Hn. destruct (z64_real n ltac:(lia)) as (F & En).
      split; [exact F|]. rewrite En, <- abs_IZR. apply IZR_le. lia.
  - rewrite map_length. destruct Lg as [-> | ->]; simpl INR; lra.
Qed.
Lemma cerr_small n : (n = 1 \/ n = 2)%nat -> cerr n <= / 100000000.
Proof.
  intros Hn. unfold cerr. replace (cubic_gain 1) with (5 / 4) by (unfold cubic_gain; field).
  assert (U := roundoff_64). assert (0 <= roundoff 53) by apply bpow_ge_0.
  assert (W : 0 <= underflow 53 1024 <= / 1000000000000000000).
  { split; [unfold underflow; assert (Q := bpow_ge_0 radix2 (3 - 1024 - 53)); lra|]. unfold underflow.
    assert (bpow radix2 (3 - 1024 - 53) <= bpow radix2 (-60)) by (apply bpow_le; lia).
    assert (bpow radix2 (-60) <= / 1000000000000000000) by (simpl; lra). lra. }
  unfold cubic_error, rectilinear_gamma.
  assert (Q : INR n * (5 / 4 + 8400 * (roundoff 53 * 1)) ^ (n - 1) <= 2 * (13 / 10)) by (destruct Hn as [-> | ->]; simpl; nra).
  assert (Q0 : 0 <= INR n * (5 / 4 + 8400 * (roundoff 53 * 1)) ^ (n - 1)) by (destruct Hn as [-> | ->]; simpl; nra).
  apply Rle_trans with (2 * (13 / 10) * (8400 / 9007199254740992 * 32 + / 10000000000)); [|lra].
  apply Rmult_le_compat; nra.
Qed.
Ltac even_ratio := unfold iaxes, rect_axes; cbn [map];
  repeat (apply Forall_cons; [let i := fresh "i" in intros i Hi1 Hi2; unfold list_axis, spacing, zlen in *; simpl in Hi2;
    let E := fresh in first [assert (E : (i = 0 \/ i = 1)%Z) by lia; destruct E as [-> | ->]
      |assert (E : (i = 0 \/ i = 1 \/ i = 2)%Z) by lia; destruct E as [-> | [-> | ->]]
      |assert (E : (i = 0 \/ i = 1 \/ i = 2 \/ i = 3)%Z) by lia; destruct E as [-> | [-> | [-> | ->]]]]; simpl; lra|]); apply Forall_nil.
Ltac is_crun := apply crun64; [first [left; reflexivity|right; reflexivity]|smalls|smalls|smalls|rect_ok
  |match goal with |- context [mcc_new _ _ _ _ ?lin] => destruct lin; vm_compute; reflexivity end
  |cbn [map]; repeat (constructor; [inc_grid|]); constructor|split; [reflexivity|]; first [each_axis2; lra|each_axis1; lra]|even_ratio].
Definition cg : list (list Z) := [[0; 2; 4; 6]; [0; 4; 8; 12; 16]]%Z.
Definition cv : list Z := [1; 4; 9; 2; 0; 3; 5; -2; 7; 1; 8; 6; 4; 2; 11; -3; 0; 5; 9; 12]%Z.
Definition cv_perm : list Z := [1; 3; 8; -3; 4; 5; 6; 0; 9; -2; 4; 5; 2; 7; 2; 9; 0; 1; 11; 12]%Z.
Definition cv_refl : list Z := [-3; 0; 5; 9; 12; 8; 6; 4; 2; 11; 3; 5; -2; 7; 1; 1; 4; 9; 2; 0]%Z.
Definition cu : list Z := [2; -1; 0; 3; 5; 1; 1; -4; 2; 0; 3; 7; 2; -5; 1; 0; 6; -2; 4; 8]%Z.
Definition cw : list Z := [3; 3; 9; 5; 5; 4; 6; -6; 9; 1; 11; 13; 6; -3; 12; -3; 6; 3; 13; 20]%Z.
Lemma crun_v lin : crun lin cg cv [3; 7]%Z. Proof. is_crun. Qed.
Lemma crun_u lin : crun lin cg cu [3; 7]%Z. Proof. is_crun. Qed.
Lemma crun_w lin : crun lin cg cw [3; 7]%Z. Proof. is_crun. Qed.
Lemma crun_perm lin : crun lin [[0; 4; 8; 12; 16]; [0; 2; 4; 6]]%Z cv_perm [7; 3]%Z. Proof. is_crun. Qed.
Lemma crun_refl lin : crun lin [[-6; -4; -2; 0]; [0; 4; 8; 12; 16]]%Z cv_refl [-3; 7]%Z. Proof. is_crun. Qed.
Lemma crun_unit lin : crun lin [[1; 21; 41; 61]; [0; 4; 8; 12; 16]]%Z cv [31; 7]%Z. Proof. is_crun. Qed.
Definition cnear (a b : outcome f64) : Prop :=
  exists y y', number_of a = Some y /\ number_of b = Some y' /\ Rabs (y - y') <= / 10000000.
Lemma cnear_by a b n n' : (n = 1 \/ n = 2)%nat -> (n' = 1 \/ n' = 2)%nat -> (exists y y', number_of a = Some y /\ number_of b = Some y' /\ Rabs (y - y') <= cerr n + cerr n') -> cnear a b.
Proof.
  intros Hn Hn' (y & y' & E & E' & B). exists y, y'. split; [exact E|]. split; [exact E'|].
  assert (H := cerr_small n Hn). assert (H' := cerr_small n' Hn'). lra.
Qed.
Ltac cnodes i := match goal with H : (0 <= i < _)%Z |- _ => simpl in H; unfold zlen in H; simpl in H end;
  let E := fresh in first
  [assert (E : (i = 0 \/ i = 1 \/ i = 2 \/ i = 3)%Z) by lia; destruct E as [-> | [-> | [-> | ->]]]
  |assert (E : (i = 0 \/ i = 1 \/ i = 2 \/ i = 3 \/ i = 4)%Z) by lia; destruct E as [-> | [-> | [-> | [-> | ->]]]]
  |assert (E : (i = 0 \/ i = 1 \/ i = 2 \/ i = 3 \/ i = 4 \/ i = 5)%Z) by lia; destruct E as [-> | [-> | [-> | [-> | [-> | ->]]]]]].
Ltac two_cindices := let idx := fresh in let Hi := fresh in intros idx Hi; inversion Hi as [|? i ? ? Hi0 Hi']; subst;
  inversion Hi' as [|? j ? ? Hj0 Hj']; subst; inversion Hj'; subst; cnodes i; cnodes j.
Example C93_cubic_permuted_ex lin : cnear (cev lin cg cv [3; 7]%Z) (cev lin [[0; 4; 8; 12; 16]; [0; 2; 4; 6]]%Z cv_perm [7; 3]%Z).
Proof.
  apply (cnear_by _ _ 2 2 (or_intror eq_refl) (or_intror eq_refl)).
  apply (C93_cubic_permuted lin [1; 0]%nat (iaxes cg) (iaxes [[0; 4; 8; 12; 16]; [0; 2; 4; 6]]%Z) (map IZR cv) (map IZR cv_perm) [3; 7] (cerr 2) (cerr 2) _ _
    (perm_swap 0%nat 1%nat []) (crun_v lin) (crun_perm lin)).
  - apply FSymmetry.same_grid_refl.
  - two_cindices; reflexivity.
Qed.
Example C93_cubic_reflected_ex lin : cnear (cev lin cg cv [3; 7]%Z) (cev lin [[-6; -4; -2; 0]; [0; 4; 8; 12; 16]]%Z cv_refl [-3; 7]%Z).
Proof.
  apply (cnear_by _ _ 2 2 (or_intror eq_refl) (or_intror eq_refl)). apply (C93_cubic_reflected lin [true; false] _ _ _ _ _ _ _ _ _ _ (crun_v lin) (crun_refl lin)).
  - simpl. unfold reflected_axis, same_axis. simpl. repeat split; try lra; intros i Hi; cnodes i; simpl; lra.
  - two_cindices; reflexivity.
Qed.
Example C93_cubic_rescaled_ex lin : cnear (cev lin cg cv [3; 7]%Z) (cev lin [[1; 21; 41; 61]; [0; 4; 8; 12; 16]]%Z cv [31; 7]%Z).
Proof.
  apply (cnear_by _ _ 2 2 (or_intror eq_refl) (or_intror eq_refl)). apply (C93_cubic_rescaled lin [(10, 1); (1, 0)] _ _ _ _ _ _ _ _ _ (crun_v lin) (crun_unit lin)).
  simpl. unfold rescaled_axis. simpl. repeat split; try lra; intros i Hi; cnodes i; simpl; lra.
Qed.
Example C94_cubic_superposition_ex lin : exists y y1 y2, number_of (cev lin cg cw [3; 7]%Z) = Some y /\
  number_of (cev lin cg cv [3; 7]%Z) = Some y1 /\ number_of (cev lin cg cu [3; 7]%Z) = Some y2 /\
  Rabs (y - (1 * y1 + 1 * y2)) <= / 10000000.
Proof.
  assert (Hr : Forall (fun a => spacing_ratio_at_most a 1) (iaxes cg)) by even_ratio. rewrite Forall_forall in Hr.
  destruct (C94_cubic_superposition lin 1 1 1 _ _ _ _ _ _ _ _ _ _ _ _ _ 0 (crun_w lin) (crun_v lin) (crun_u lin)
    (FSymmetry.same_grid_refl _) (FSymmetry.same_grid_refl _)) as (y & y1 & y2 & E & E1 & E2 & B).
  { unfold cw, combination. simpl. repeat (apply Forall2_cons; [apply Rabs_le; lra|]). apply Forall2_nil. }
  { exact Hr. }
  exists y, y1, y2. split; [exact E|]. split; [exact E1|]. split; [exact E2|].
  rewrite Rabs_R1 in B. assert (H := cerr_small 2 (or_intror eq_refl)). change (length cg) with 2%nat in B. lra.
Qed.
(** The point on the plane of node 1 of the first axis. *)
Lemma crun_node lin : crun lin cg cv [2; 7]%Z. Proof. is_crun. Qed.
Lemma crun_slice lin : crun lin [[0; 4; 8; 12; 16]]%Z [3; 5; -2; 7; 1]%Z [7]%Z. Proof. is_crun. Qed.
Example C93_cubic_slice_ex lin : cnear (cev lin cg cv [2; 7]%Z) (cev lin [[0; 4; 8; 12; 16]]%Z [3; 5; -2; 7; 1]%Z [7]%Z).
Proof.
  apply (cnear_by _ _ 2 1 (or_intror eq_refl) (or_introl eq_refl)).
  apply (C93_cubic_slice lin [] (list_axis (map IZR [0; 2; 4; 6]%Z)) (iaxes [[0; 4; 8; 12; 16]]%Z) (iaxes [[0; 4; 8; 12; 16]]%Z) [] [7] 1
    (map IZR cv) (map IZR [3; 5; -2; 7; 1]%Z) (cerr 2) (cerr 1) _ _ eq_refl eq_refl (conj (Z.le_0_1) (eq_refl Lt)) (crun_node lin) (crun_slice lin)).
  - apply FSymmetry.same_grid_refl.
  - intros i j Hi Hj. inversion Hi; subst. inversion Hj as [|? k ? ? Hk Hj']; subst. inversion Hj'; subst. cnodes k; reflexivity.
Qed.
(** The first of the five nodes of the second axis cut off; the point is more than one cell away from the cut. *)
Definition big : list Z := [-4; 1; 6; 11; -1; -1; 11; 6; 1; -4; 8; 10; 12; -3; -1; 6; -2; 7; -1; 8]%Z.
Definition cut : list Z := [1; 6; 11; -1; 11; 6; 1; -4; 10; 12; -3; -1; -2; 7; -1; 8]%Z.
Lemma crun_big lin : crun lin [[0; 2; 4; 6]; [0; 4; 8; 12; 16]]%Z big [3; 9]%Z. Proof. is_crun. Qed.
Lemma crun_cut lin : crun lin [[0; 2; 4; 6]; [4; 8; 12; 16]]%Z cut [3; 9]%Z. Proof. is_crun. Qed.
Example C93_cubic_crop_ex lin : cnear (cev lin [[0; 2; 4; 6]; [0; 4; 8; 12; 16]]%Z big [3; 9]%Z)
  (cev lin [[0; 2; 4; 6]; [4; 8; 12; 16]]%Z cut [3; 9]%Z).
Proof.
  apply (cnear_by _ _ 2 2 (or_intror eq_refl) (or_intror eq_refl)).
  apply (C93_cubic_crop lin [0; 1]%Z _ _ _ _ _ _ _ _ _ (crun_big lin) (crun_cut lin)).
  - split; [reflexivity|]. split; [reflexivity|]. intros [|[|k]] a b Ha Hb; [| |destruct k; discriminate];
      injection Ha as <-; injection Hb as <-; (split; [simpl; lia|split; [vm_compute; discriminate|]]); intros i Hi; cnodes i; simpl; lra.
  - two_cindices; reflexivity.
  - split; [reflexivity|]. intros [|[|k]] a b Ha Hb; [| |destruct k; discriminate];
      injection Ha as <-; injection Hb as <-; simpl; unfold zlen; simpl; split; first [left; reflexivity|right; lra].
Qed.
(** Along the first axis at 3, where the blocks are straight lines, then along the second at 7. *)
Definition lines : list Z := [1; 4; 9; 2; 0; 3; 2; 13; 8; -4; 5; 0; 17; 14; -8; 7; -2; 21; 20; -12]%Z.
Lemma crun_lines lin : crun lin cg lines [3; 7]%Z. Proof. is_crun. Qed.
Lemma crun_second lin : crun lin [[0; 4; 8; 12; 16]]%Z [4; 1; 15; 11; -6]%Z [7]%Z. Proof. is_crun. Qed.
Lemma cwhole_result lin g v x n : (Z.abs n <= 1000)%Z -> ok_is (cev lin g v x) (z64 n) = true -> number_of (cev lin g v x) = Some (IZR n).
Proof.
  intros Hn Q. destruct (z64_real n Hn) as (F & E). destruct (cev lin g v x) as [y| |] eqn:Ey; try discriminate.
  unfold number_of. assert (Fy : is_finite y = true).
  { unfold ok_is in Q. destruct y; try reflexivity; destruct (z64 n); try discriminate F; destruct s; discriminate Q. }
  rewrite Fy. f_equal. apply (lit_value y (z64 n)); auto.
Qed.
Lemma crun_some lin g v x n : (Z.abs n <= 1000)%Z -> ok_is (cev lin g v x) (z64 n) = true -> crun lin g v x ->
  cubic_run lin (iaxes g) (map IZR v) (map IZR x) (cerr (length g)) (Some (IZR n)).
Proof. intros Hn Q R. unfold crun in R. rewrite (cwhole_result lin g v x n Hn Q) in R. exact R. Qed.
Example C94_cubic_nested_ex lin : cnear (cev lin cg lines [3; 7]%Z) (cev lin [[0; 4; 8; 12; 16]]%Z [4; 1; 15; 11; -6]%Z [7]%Z).
Proof.
  assert (Hr : Forall (fun a => spacing_ratio_at_most a 1) (iaxes [[0; 4; 8; 12; 16]]%Z)) by even_ratio. rewrite Forall_forall in Hr.
  assert (H1 := cerr_small 1 (or_introl eq_refl)). assert (H2 := cerr_small 2 (or_intror eq_refl)).
  assert (F : prod_upto (length (iaxes [[0; 4; 8; 12; 16]]%Z)) (fun k => cubic_reach_gain lin 1 (outside_by (iaxes [[0; 4; 8; 12; 16]]%Z) [7] k)) <= 2).
  { unfold prod_upto, outside_by. cbn [length iaxes rect_axes map seq fold_right nth].
    rewrite !no_over by (unfold spacing; simpl; lra). unfold cubic_reach_gain, cubic_gain. destruct lin; simpl; lra. }
  destruct (C94_cubic_nested lin 1 (iaxes [[0; 2; 4; 6]]%Z) (iaxes [[0; 4; 8; 12; 16]]%Z) (iaxes [[0; 4; 8; 12; 16]]%Z) [3] [7]
    (map IZR lines) (map IZR [4; 1; 15; 11; -6]%Z) (cerr 2) (cerr 1) (cerr 1) _ _ 0 eq_refl eq_refl (crun_lines lin) (crun_second lin) (FSymmetry.same_grid_refl _)) as (y & y2 & E & E2 & B).
  - intros j Hj. inversion Hj as [|? k ? ? Hk Hj']; subst. inversion Hj'; subst. cnodes k.
    + exists (iaxes [[0; 2; 4; 6]]%Z), (map IZR [1; 3; 5; 7]%Z), (4). split; [apply (crun_some lin [[0; 2; 4; 6]]%Z [1; 3; 5; 7]%Z [3]%Z (4)); [vm_compute; discriminate|destruct lin; vm_compute; reflexivity|is_crun]|].
      split; [apply FSymmetry.same_grid_refl|]. split; [|apply dist0].
      intros i Hi. inversion Hi as [|? l ? ? Hl Hi']; subst. inversion Hi'; subst. cnodes l; reflexivity.
    + exists (iaxes [[0; 2; 4; 6]]%Z), (map IZR [4; 2; 0; -2]%Z), (1). split; [apply (crun_some lin [[0; 2; 4; 6]]%Z [4; 2; 0; -2]%Z [3]%Z (1)); [vm_compute; discriminate|destruct lin; vm_compute; reflexivity|is_crun]|].
      split; [apply FSymmetry.same_grid_refl|]. split; [|apply dist0].
      intros i Hi. inversion Hi as [|? l ? ? Hl Hi']; subst. inversion Hi'; subst. cnodes l; reflexivity.
    + exists (iaxes [[0; 2; 4; 6]]%Z), (map IZR [9; 13; 17; 21]%Z), (15). split; [apply (crun_some lin [[0; 2; 4; 6]]%Z [9; 13; 17; 21]%Z [3]%Z (15)); [vm_compute; discriminate|destruct lin; vm_compute; reflexivity|is_crun]|].
      split; [apply FSymmetry.same_grid_refl|]. split; [|apply dist0].
      intros i Hi. inversion Hi as [|? l ? ? Hl Hi']; subst. inversion Hi'; subst. cnodes l; reflexivity.
    + exists (iaxes [[0; 2; 4; 6]]%Z), (map IZR [2; 8; 14; 20]%Z), (11). split; [apply (crun_some lin [[0; 2; 4; 6]]%Z [2; 8; 14; 20]%Z [3]%Z (11)); [vm_compute; discriminate|destruct lin; vm_compute; reflexivity|is_crun]|].
      split; [apply FSymmetry.same_grid_refl|]. split; [|apply dist0].
      intros i Hi. inversion Hi as [|? l ? ? Hl Hi']; subst. inversion Hi'; subst. cnodes l; reflexivity.
    + exists (iaxes [[0; 2; 4; 6]]%Z), (map IZR [0; -4; -8; -12]%Z), (-6). split; [apply (crun_some lin [[0; 2; 4; 6]]%Z [0; -4; -8; -12]%Z [3]%Z (-6)); [vm_compute; discriminate|destruct lin; vm_compute; reflexivity|is_crun]|].
      split; [apply FSymmetry.same_grid_refl|]. split; [|apply dist0].
      intros i Hi. inversion Hi as [|? l ? ? Hl Hi']; subst. inversion Hi'; subst. cnodes l; reflexivity.
  - exact Hr.
  - exists y, y2. split; [exact E|]. split; [exact E2|].
    assert (P0 : 0 <= cerr 1).
    { unfold cerr, cubic_error, rectilinear_gamma. simpl. assert (0 <= roundoff 53) by apply bpow_ge_0.
      assert (0 <= underflow 53 1024) by (unfold underflow; assert (Q := bpow_ge_0 radix2 (3 - 1024 - 53)); lra). lra. }
    eapply Rle_trans; [exact B|]. nra.
Qed.
Print Assumptions C94_linear_superposition.
Print Assumptions C94_cubic_superposition.
Print Assumptions C94_linear_nested.
Print Assumptions C94_cubic_nested.
Print Assumptions C94_resample.
