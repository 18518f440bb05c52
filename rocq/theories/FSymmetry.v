(** Axis order, reflection, units, slices, cropping, superposition and resampling, for evaluations
    that are known up to an error bound. *)
From Coq Require Import Reals Lra Lia List Bool ZifyBool ZifyNat PeanoNat Permutation.
From Flocq Require Import Core.Core.
From Verif Require Import Base Ops FInst ModelCore ModelLinear ModelCubic Spec SpecOrder SpecIEEE SpecError.
From Verif Require Import MethodLemmas GenLemmas FLemmas FProofs FProofs2 FError FError2 Shape FApprox.
From Verif Require Import RInst SpecReal CoreLemmas MethodChar RTensor R1D RChar Interpolators REval RProofs RProofs2 RProofs3 SpecApprox SpecSplit Split SplitProofs.
From Verif Require Import Approx1D Approx SpecExtrap Extrap1D Extrap SpecReach SpecCubicReach FCubicExtrap3 SpecAgree AgreeProofs.
Import ListNotations.
Unset Implicit Arguments.
Open Scope list_scope.
Open Scope R_scope.

Lemma apart0 y y' v v' e e' : Rabs (y - v) <= e -> Rabs (y' - v') <= e' -> v = v' -> Rabs (y - y') <= e + e'.
Proof. intros H H' ->. apply Rabs_le_inv in H, H'. apply Rabs_le. lra. Qed.

Lemma same_grid_refl axes : same_grid axes axes.
Proof. unfold same_grid. induction axes; constructor; auto. split; auto. Qed.

Section Op.
Variables (FP : Z) (op : axis -> R -> (Z -> R) -> R).
Hypothesis Hlf : forall a t, good_axis FP a -> lf (npts a) (op a t).
Hypothesis Hmass : forall a t, good_axis FP a -> mass1 (op a t).
Hypothesis Hnode : forall a i f, good_axis FP a -> (0 <= i < npts a)%Z -> op a (coord a i) f = f i.
Hypothesis Hsame : forall a b v f, good_axis FP a -> good_axis FP b -> same_axis a b -> op a v f = op b v f.
Hypothesis Hres : forall st a b v f, good_axis FP a -> good_axis FP b -> rescaled_axis st a b ->
  op b (fst st * v + snd st) f = op a v f.
Hypothesis Hrefl : forall a b v f, good_axis FP a -> good_axis FP b -> reflected_axis a b ->
  op b (- v) (fun i => f (npts a - 1 - i)%Z) = op a v f.
Variable m : Z.
Hypothesis Hcrop : forall lo a b x f, good_axis FP a -> good_axis FP b -> crop_axis lo a b -> crop_side m lo a b x ->
  op b x (fun j => f (lo + j)%Z) = op a x f.
Notation HV := (has_value op FP).
Notation close r r' e e' := (exists y y', r = Some y /\ r' = Some y' /\ Rabs (y - y') <= e + e').

Lemma op_lfs axes x : length x = length axes -> Forall (good_axis FP) axes -> lfs (map npts axes) (ops1 op axes x).
Proof using All. apply (ops_lfs FP op Hlf Hmass Hnode). Qed.

Lemma op_value_same axes axes' vals x e r : same_grid axes axes' -> Forall (good_axis FP) axes ->
  HV axes' vals x e r -> HV axes vals x e r.
Proof using All.
  intros S G (G' & L & Z' & y & E & R). assert (N := same_grid_npts S). assert (Lx : length x = length axes) by (rewrite (@Forall2_len _ _ _ _ _ S); auto).
  split; [exact G|]. split; [exact Lx|]. split; [rewrite N; exact Z'|]. exists y. split; [exact E|].
  rewrite <- N in R.
  rewrite (@tenL_ops_eq _ _ _ _ _ _ _ (same_grid_good op Hsame G G' S) Lx (op_lfs axes x Lx G)). exact R.
Qed.

Lemma permute_good p axes : Permutation p (seq 0 (length axes)) -> Forall (good_axis FP) axes ->
  Forall (good_axis FP) (permute no_axis p axes).
Proof using All.
  intros Hp G. apply Forall_forall. intros a Ha. unfold permute in Ha. apply in_map_iff in Ha. destruct Ha as (k & <- & Hk).
  assert (Hk' := Permutation_in _ Hp Hk). apply in_seq in Hk'. rewrite Forall_forall in G. apply G. apply nth_In. lia.
Qed.

Lemma permuted_close p axes axes' vals vals' x e e' r r' :
  Permutation p (seq 0 (length axes)) -> HV axes vals x e r -> HV axes' vals' (permute 0 p x) e' r' ->
  same_grid (permute no_axis p axes) axes' ->
  (forall idx, in_shape (map npts axes) idx ->
     entry 0 (map npts (permute no_axis p axes)) vals' (permute 0%Z p idx) = entry 0 (map npts axes) vals idx) ->
  close r r' e e'.
Proof using All.
  intros Hp V V' S HE. assert (G := proj1 V). assert (Gp := permute_good p axes Hp G).
  apply (op_value_same _ _ _ _ _ _ S Gp) in V'.
  destruct V as (_ & Lx & _ & y & E & R). destruct V' as (_ & _ & _ & y' & E' & R').
  exists y, y'. split; [exact E|]. split; [exact E'|]. apply (apart0 _ _ _ _ _ _ R R'). symmetry.
  apply (@permuted_value FP); auto. intros. apply op_lfs; auto.
Qed.

Lemma reflected_close flips axes axes' vals vals' x x' e e' r r' :
  HV axes vals x e r -> HV axes' vals' x' e' r' -> reflected_grid flips axes axes' x x' ->
  (forall idx, in_shape (map npts axes) idx ->
     entry 0 (map npts axes) vals' idx = entry 0 (map npts axes) vals (reflect_indices flips (map npts axes) idx)) ->
  close r r' e e'.
Proof using All.
  intros (G & Lx & _ & y & E & R) (G' & Lx' & _ & y' & E' & R') S HE.
  destruct (reflected_npts _ _ _ _ _ S) as (En & _ & _).
  exists y, y'. split; [exact E|]. split; [exact E'|]. apply (apart0 _ _ _ _ _ _ R R'). symmetry. rewrite En.
  apply (@reflected_tenL FP op) with (flips := flips); auto.
Qed.

Lemma rescaled_close st axes axes' vals x x' e e' r r' :
  HV axes vals x e r -> HV axes' vals x' e' r' -> rescaled_grid st axes axes' x x' -> close r r' e e'.
Proof using All.
  intros (G & Lx & _ & y & E & R) (G' & Lx' & _ & y' & E' & R') S.
  destruct (rescaled_npts _ _ _ _ _ S) as (En & _ & _).
  exists y, y'. split; [exact E|]. split; [exact E'|]. apply (apart0 _ _ _ _ _ _ R R'). symmetry. rewrite En.
  apply (@rescaled_tenL FP op) with (st := st); auto.
Qed.

Lemma slice_close a1 a a2 axes' x1 x2 i w s e e' r r' :
  length x1 = length a1 -> length x2 = length a2 -> (0 <= i < npts a)%Z ->
  HV (a1 ++ a :: a2) w (x1 ++ coord a i :: x2) e r -> HV axes' s (x1 ++ x2) e' r' -> same_grid (a1 ++ a2) axes' ->
  slice_data (map npts a1) (npts a) (map npts a2) i w s -> close r r' e e'.
Proof using All.
  intros L1 L2 Hi V V' S P. assert (G := proj1 V). destruct (good_app _ _ _ G) as (G1 & G2). inversion G2 as [|? ? Ga Gr]; subst.
  assert (G' : Forall (good_axis FP) (a1 ++ a2)) by (apply Forall_app; auto).
  apply (op_value_same _ _ _ _ _ _ S G') in V'.
  destruct V as (_ & Lx & _ & y & E & R). destruct V' as (_ & _ & _ & y' & E' & R').
  exists y, y'. split; [exact E|]. split; [exact E'|]. apply (apart0 _ _ _ _ _ _ R R').
  exact (T_slice FP op Hlf Hmass Hnode a1 a a2 x1 x2 i w s L1 L2 G1 Ga Gr Hi P).
Qed.

Lemma crop_close los axes axes' vals vals' x e e' r r' :
  HV axes vals x e r -> HV axes' vals' x e' r' ->
  crop_grid los axes axes' -> crop_data los (map npts axes) (map npts axes') vals vals' ->
  inside_crop m los axes axes' x -> close r r' e e'.
Proof using All.
  intros (G & Lx & _ & y & E & R) (G' & Lx' & _ & y' & E' & R') Cg Cd Ci.
  exists y, y'. split; [exact E|]. split; [exact E'|]. apply (apart0 _ _ _ _ _ _ R R').
  rewrite <- (T_crop FP m op Hlf Hcrop axes axes' los x _ G G' Cg Ci).
  symmetry. apply (tenL_ext _ _ (op_lfs axes' x Lx' G')). intros idx Hi. apply Cd; exact Hi.
Qed.

(** Superposition: [N] bounds how much the operator along all axes magnifies an error in the data. *)
Lemma combination_close a b axes1 axes2 axes u v w x e e1 e2 r r1 r2 d N :
  HV axes w x e r -> HV axes1 u x e1 r1 -> HV axes2 v x e2 r2 -> same_grid axes axes1 -> same_grid axes axes2 ->
  values_within d w (combination a b u v) ->
  (forall V, (forall idx, in_shape (map npts axes) idx -> Rabs (V idx) <= d) -> Rabs (tenL (ops1 op axes x) V) <= N * d) ->
  exists y y1 y2, r = Some y /\ r1 = Some y1 /\ r2 = Some y2 /\
    Rabs (y - (a * y1 + b * y2)) <= e + Rabs a * e1 + Rabs b * e2 + N * d.
Proof using All.
  intros V V1 V2 S1 S2 Hd HN. assert (G := proj1 V).
  apply (op_value_same _ _ _ _ _ _ S1 G) in V1. apply (op_value_same _ _ _ _ _ _ S2 G) in V2.
  destruct V as (_ & Lx & Lw & y & E & R). destruct V1 as (_ & _ & Lu & y1 & E1 & R1). destruct V2 as (_ & _ & Lv & y2 & E2 & R2).
  exists y, y1, y2. split; [exact E|]. split; [exact E1|]. split; [exact E2|].
  assert (F := op_lfs axes x Lx G).
  assert (C := @tenL_combination (map npts axes) (ops1 op axes x) a b u v F Lu Lv).
  set (t := tenL (ops1 op axes x) (entry 0 (map npts axes) w)) in *.
  set (t1 := tenL (ops1 op axes x) (entry 0 (map npts axes) u)) in *.
  set (t2 := tenL (ops1 op axes x) (entry 0 (map npts axes) v)) in *.
  assert (D : Rabs (t - (a * t1 + b * t2)) <= N * d).
  { rewrite <- C. unfold t. rewrite (tenL_minus _ _ _ _ F). apply HN. intros idx Hi. apply within_entry; auto. }
  replace (y - (a * y1 + b * y2)) with ((y - t) + (t - (a * t1 + b * t2)) + (a * (t1 - y1) + b * (t2 - y2))) by ring.
  eapply Rle_trans; [apply Rabs_triang|]. 
  assert (Q1 : Rabs (y - t + (t - (a * t1 + b * t2))) <= e + N * d).
  { eapply Rle_trans; [apply Rabs_triang|]. lra. }
  assert (Q2 : Rabs (a * (t1 - y1) + b * (t2 - y2)) <= Rabs a * e1 + Rabs b * e2).
  { eapply Rle_trans; [apply Rabs_triang|]. rewrite !Rabs_mult. rewrite (Rabs_minus_sym t1), (Rabs_minus_sym t2).
    apply Rplus_le_compat; apply Rmult_le_compat_l; auto using Rabs_pos. }
  lra.
Qed.

(** One group of axes after the other: [w2] holds, up to [d], the computed results along [a1]. *)
Lemma nested_close a1 a2 axes2 x1 x2 w w2 e e1 e2 r r2 d N :
  length x1 = length a1 -> length x2 = length a2 ->
  HV (a1 ++ a2) w (x1 ++ x2) e r -> HV axes2 w2 x2 e2 r2 -> same_grid a2 axes2 ->
  (forall j, in_shape (map npts a2) j -> exists axes1 u r1 y1, HV axes1 u x1 e1 r1 /\ same_grid a1 axes1 /\
     block_data (map npts a1) (map npts a2) j w u /\ r1 = Some y1 /\ Rabs (y1 - entry 0 (map npts a2) w2 j) <= d) ->
  (forall V D, (forall idx, in_shape (map npts a2) idx -> Rabs (V idx) <= D) -> Rabs (tenL (ops1 op a2 x2) V) <= N * D) ->
  exists y y2, r = Some y /\ r2 = Some y2 /\ Rabs (y - y2) <= e + e2 + N * (e1 + d).
Proof using All.
  intros L1 L2 V V2 S2 P HN. assert (G := proj1 V). destruct (good_app _ _ _ G) as (G1 & G2).
  apply (op_value_same _ _ _ _ _ _ S2 G2) in V2.
  destruct V as (_ & _ & _ & y & E & R). destruct V2 as (_ & _ & _ & y2 & E2 & R2).
  exists y, y2. split; [exact E|]. split; [exact E2|]. apply (apart _ _ _ _ _ _ _ R R2).
  assert (F1 := op_lfs a1 x1 L1 G1). assert (F2 := op_lfs a2 x2 L2 G2).
  rewrite ops1_app by auto. rewrite (tenL_app _ _ _ _ F1), map_app.
  rewrite (tenL_tenL _ _ _ _ _ F1 F2), (tenL_minus _ _ _ _ F2). apply HN. intros j Hj.
  destruct (P j Hj) as (axes1 & u & r1 & y1 & V1 & S1 & B & E1 & D).
  apply (op_value_same _ _ _ _ _ _ S1 G1) in V1. destruct V1 as (_ & _ & _ & y1' & E1' & R1).
  rewrite E1 in E1'. injection E1' as <-.
  rewrite (tenL_ext _ (entry 0 (map npts a1) u) F1) by (intros i Hi; symmetry; apply B; auto).
  apply Rabs_le_inv in R1, D. apply Rabs_le. lra.
Qed.
End Op.

Section Refine.
Notation HV := (has_value lin1 2).
Lemma refine_close axes axes' vals vals' x e e' en r r' d N :
  HV axes vals x e r -> HV axes' vals' x e' r' -> Forall2 refines axes axes' ->
  (forall idx, in_shape (map npts axes') idx -> exists axesn rn yn, HV axesn vals (node_pos axes' idx) en rn /\
     same_grid axes axesn /\ rn = Some yn /\ Rabs (yn - entry 0 (map npts axes') vals' idx) <= d) ->
  (forall V D, (forall idx, in_shape (map npts axes') idx -> Rabs (V idx) <= D) -> Rabs (tenL (ops1 lin1 axes' x) V) <= N * D) ->
  exists y y', r = Some y /\ r' = Some y' /\ Rabs (y - y') <= e + e' + N * (en + d).
Proof.
  intros (G & Lx & _ & y & E & R) (G' & Lx' & _ & y' & E' & R') Hr P HN.
  exists y, y'. split; [exact E|]. split; [exact E'|]. apply (apart _ _ _ _ _ _ _ R R').
  rewrite <- (T_refine axes axes' x _ G G' Hr Lx). assert (F := lin_lfs axes' x Lx' G').
  rewrite (tenL_minus _ _ _ _ F). apply HN. intros idx Hi.
  destruct (P idx Hi) as (axesn & rn & yn & Vn & S & En & D).
  apply (lin_value_same _ _ _ _ _ _ S G) in Vn. destruct Vn as (_ & _ & _ & yn' & En' & Rn).
  rewrite En in En'. injection En' as <-. apply Rabs_le_inv in Rn, D. apply Rabs_le. lra.
Qed.
End Refine.

(** ** The interpolators *)
Definition cubic_gain_at (lin : bool) (rho : R) (axes : list axis) (x : list R) : R :=
  prod_upto (length axes) (fun k => cubic_reach_gain lin rho (outside_by axes x k)).

Lemma lin_gain axes x : length x = length axes -> Forall (good_axis 2) axes ->
  forall V D, (forall idx, in_shape (map npts axes) idx -> Rabs (V idx) <= D) ->
  Rabs (tenL (ops1 lin1 axes x) V) <= reach_factor axes x * D.
Proof.
  intros Lx G V D HV. apply (tenL_norm_any axes); [apply ops1_shape; auto| |exact HV].
  intros k a L0 Hk HkL. rewrite (ops1_nth_error _ _ _ _ _ _ Lx Hk HkL). clear L0 HkL.
  rewrite (outside_nth _ _ _ _ Hk). assert (Gk := good_nth _ G Hk).
  intros v B HB. apply lin1_norm_any; auto; apply Gk.
Qed.
Lemma cub_gain lin rho axes x : length x = length axes -> Forall (good_axis 4) axes ->
  (forall a, In a axes -> spacing_ratio_at_most a rho) ->
  forall V D, (forall idx, in_shape (map npts axes) idx -> Rabs (V idx) <= D) ->
  Rabs (tenL (ops1 (cub1 lin) axes x) V) <= cubic_gain_at lin rho axes x * D.
Proof.
  intros Lx G Hr V D HV. apply (tenL_norm_any axes); [apply ops1_shape; auto| |exact HV].
  intros k a L0 Hk HkL. rewrite (ops1_nth_error _ _ _ _ _ _ Lx Hk HkL). clear L0 HkL.
  rewrite (outside_nth _ _ _ _ Hk). assert (Gk := good_nth _ G Hk).
  intros v B HB. apply cub1_norm_any; auto; try apply Gk. apply Hr. eapply nth_error_In; eauto.
Qed.

Theorem C93_proof_linear_permuted p axes axes' vals vals' x e e' r r' :
  Permutation p (seq 0 (length axes)) -> linear_run axes vals x e r -> linear_run axes' vals' (permute 0 p x) e' r' ->
  same_grid (permute no_axis p axes) axes' ->
  (forall idx, in_shape (map npts axes) idx ->
     entry 0 (map npts (permute no_axis p axes)) vals' (permute 0%Z p idx) = entry 0 (map npts axes) vals idx) ->
  exists y y', r = Some y /\ r' = Some y' /\ Rabs (y - y') <= e + e'.
Proof.
  intros Hp H H'. exact (permuted_close 2 lin1 lin_lf lin_mass lin_node same_lin1 rescaled_lin1 reflected_lin1 0 lin1_crop p axes axes' vals vals' x e e' r r' Hp (linear_run_value _ _ _ _ _ H) (linear_run_value _ _ _ _ _ H')).
Qed.
Theorem C93_proof_cubic_permuted lin p axes axes' vals vals' x e e' r r' :
  Permutation p (seq 0 (length axes)) -> cubic_run lin axes vals x e r -> cubic_run lin axes' vals' (permute 0 p x) e' r' ->
  same_grid (permute no_axis p axes) axes' ->
  (forall idx, in_shape (map npts axes) idx ->
     entry 0 (map npts (permute no_axis p axes)) vals' (permute 0%Z p idx) = entry 0 (map npts axes) vals idx) ->
  exists y y', r = Some y /\ r' = Some y' /\ Rabs (y - y') <= e + e'.
Proof.
  intros Hp H H'. exact (permuted_close 4 (cub1 lin) (cub_lf lin) (cub_mass lin) (cub_node lin) (@same_cub1 lin) (@rescaled_cub1 lin) (@reflected_cub1 lin) 1 (cub1_crop lin) p axes axes' vals vals' x e e' r r' Hp (cubic_run_value _ _ _ _ _ _ H) (cubic_run_value _ _ _ _ _ _ H')).
Qed.
Theorem C93_proof_linear_reflected flips axes axes' vals vals' x x' e e' r r' :
  linear_run axes vals x e r -> linear_run axes' vals' x' e' r' -> reflected_grid flips axes axes' x x' ->
  (forall idx, in_shape (map npts axes) idx ->
     entry 0 (map npts axes) vals' idx = entry 0 (map npts axes) vals (reflect_indices flips (map npts axes) idx)) ->
  exists y y', r = Some y /\ r' = Some y' /\ Rabs (y - y') <= e + e'.
Proof.
  intros H H'. exact (reflected_close 2 lin1 lin_lf lin_mass lin_node same_lin1 rescaled_lin1 reflected_lin1 0 lin1_crop flips axes axes' vals vals' x x' e e' r r' (linear_run_value _ _ _ _ _ H) (linear_run_value _ _ _ _ _ H')).
Qed.
Theorem C93_proof_cubic_reflected lin flips axes axes' vals vals' x x' e e' r r' :
  cubic_run lin axes vals x e r -> cubic_run lin axes' vals' x' e' r' -> reflected_grid flips axes axes' x x' ->
  (forall idx, in_shape (map npts axes) idx ->
     entry 0 (map npts axes) vals' idx = entry 0 (map npts axes) vals (reflect_indices flips (map npts axes) idx)) ->
  exists y y', r = Some y /\ r' = Some y' /\ Rabs (y - y') <= e + e'.
Proof.
  intros H H'. exact (reflected_close 4 (cub1 lin) (cub_lf lin) (cub_mass lin) (cub_node lin) (@same_cub1 lin) (@rescaled_cub1 lin) (@reflected_cub1 lin) 1 (cub1_crop lin) flips axes axes' vals vals' x x' e e' r r' (cubic_run_value _ _ _ _ _ _ H) (cubic_run_value _ _ _ _ _ _ H')).
Qed.
Theorem C93_proof_linear_rescaled st axes axes' vals x x' e e' r r' :
  linear_run axes vals x e r -> linear_run axes' vals x' e' r' -> rescaled_grid st axes axes' x x' ->
  exists y y', r = Some y /\ r' = Some y' /\ Rabs (y - y') <= e + e'.
Proof.
  intros H H'. exact (rescaled_close 2 lin1 lin_lf lin_mass lin_node same_lin1 rescaled_lin1 reflected_lin1 0 lin1_crop st axes axes' vals x x' e e' r r' (linear_run_value _ _ _ _ _ H) (linear_run_value _ _ _ _ _ H')).
Qed.
Theorem C93_proof_cubic_rescaled lin st axes axes' vals x x' e e' r r' :
  cubic_run lin axes vals x e r -> cubic_run lin axes' vals x' e' r' -> rescaled_grid st axes axes' x x' ->
  exists y y', r = Some y /\ r' = Some y' /\ Rabs (y - y') <= e + e'.
Proof.
  intros H H'. exact (rescaled_close 4 (cub1 lin) (cub_lf lin) (cub_mass lin) (cub_node lin) (@same_cub1 lin) (@rescaled_cub1 lin) (@reflected_cub1 lin) 1 (cub1_crop lin) st axes axes' vals x x' e e' r r' (cubic_run_value _ _ _ _ _ _ H) (cubic_run_value _ _ _ _ _ _ H')).
Qed.
Theorem C93_proof_linear_slice a1 a a2 axes' x1 x2 i w s e e' r r' :
  length x1 = length a1 -> length x2 = length a2 -> (0 <= i < npts a)%Z ->
  linear_run (a1 ++ a :: a2) w (x1 ++ coord a i :: x2) e r -> linear_run axes' s (x1 ++ x2) e' r' -> same_grid (a1 ++ a2) axes' ->
  slice_data (map npts a1) (npts a) (map npts a2) i w s ->
  exists y y', r = Some y /\ r' = Some y' /\ Rabs (y - y') <= e + e'.
Proof.
  intros L1 L2 Hi H H'. exact (slice_close 2 lin1 lin_lf lin_mass lin_node same_lin1 rescaled_lin1 reflected_lin1 0 lin1_crop a1 a a2 axes' x1 x2 i w s e e' r r' L1 L2 Hi (linear_run_value _ _ _ _ _ H) (linear_run_value _ _ _ _ _ H')).
Qed.
Theorem C93_proof_cubic_slice lin a1 a a2 axes' x1 x2 i w s e e' r r' :
  length x1 = length a1 -> length x2 = length a2 -> (0 <= i < npts a)%Z ->
  cubic_run lin (a1 ++ a :: a2) w (x1 ++ coord a i :: x2) e r -> cubic_run lin axes' s (x1 ++ x2) e' r' -> same_grid (a1 ++ a2) axes' ->
  slice_data (map npts a1) (npts a) (map npts a2) i w s ->
  exists y y', r = Some y /\ r' = Some y' /\ Rabs (y - y') <= e + e'.
Proof.
  intros L1 L2 Hi H H'. exact (slice_close 4 (cub1 lin) (cub_lf lin) (cub_mass lin) (cub_node lin) (@same_cub1 lin) (@rescaled_cub1 lin) (@reflected_cub1 lin) 1 (cub1_crop lin) a1 a a2 axes' x1 x2 i w s e e' r r' L1 L2 Hi (cubic_run_value _ _ _ _ _ _ H) (cubic_run_value _ _ _ _ _ _ H')).
Qed.
Theorem C93_proof_linear_crop los axes axes' vals vals' x e e' r r' :
  linear_run axes vals x e r -> linear_run axes' vals' x e' r' ->
  crop_grid los axes axes' -> crop_data los (map npts axes) (map npts axes') vals vals' -> inside_crop 0 los axes axes' x ->
  exists y y', r = Some y /\ r' = Some y' /\ Rabs (y - y') <= e + e'.
Proof.
  intros H H'. exact (crop_close 2 lin1 lin_lf lin_mass lin_node same_lin1 rescaled_lin1 reflected_lin1 0 lin1_crop los axes axes' vals vals' x e e' r r' (linear_run_value _ _ _ _ _ H) (linear_run_value _ _ _ _ _ H')).
Qed.
Theorem C93_proof_cubic_crop lin los axes axes' vals vals' x e e' r r' :
  cubic_run lin axes vals x e r -> cubic_run lin axes' vals' x e' r' ->
  crop_grid los axes axes' -> crop_data los (map npts axes) (map npts axes') vals vals' -> inside_crop 1 los axes axes' x ->
  exists y y', r = Some y /\ r' = Some y' /\ Rabs (y - y') <= e + e'.
Proof.
  intros H H'. exact (crop_close 4 (cub1 lin) (cub_lf lin) (cub_mass lin) (cub_node lin) (@same_cub1 lin) (@rescaled_cub1 lin) (@reflected_cub1 lin) 1 (cub1_crop lin) los axes axes' vals vals' x e e' r r' (cubic_run_value _ _ _ _ _ _ H) (cubic_run_value _ _ _ _ _ _ H')).
Qed.
Theorem C94_proof_linear_superposition a b axes axes1 axes2 u v w x e e1 e2 r r1 r2 d :
  linear_run axes w x e r -> linear_run axes1 u x e1 r1 -> linear_run axes2 v x e2 r2 ->
  same_grid axes axes1 -> same_grid axes axes2 -> values_within d w (combination a b u v) ->
  exists y y1 y2, r = Some y /\ r1 = Some y1 /\ r2 = Some y2 /\
    Rabs (y - (a * y1 + b * y2)) <= e + Rabs a * e1 + Rabs b * e2 + reach_factor axes x * d.
Proof.
  intros H H1 H2 S1 S2 Hd. assert (V := (linear_run_value _ _ _ _ _ H)). assert (G := proj1 V). assert (Lx := proj1 (proj2 V)).
  exact (combination_close 2 lin1 lin_lf lin_mass lin_node same_lin1 rescaled_lin1 reflected_lin1 0 lin1_crop a b axes1 axes2 axes u v w x e e1 e2 r r1 r2 d _ V (linear_run_value _ _ _ _ _ H1) (linear_run_value _ _ _ _ _ H2) S1 S2 Hd
    (fun V Hd => lin_gain axes x Lx G V d Hd)).
Qed.
Theorem C94_proof_cubic_superposition lin rho a b axes axes1 axes2 u v w x e e1 e2 r r1 r2 d :
  cubic_run lin axes w x e r -> cubic_run lin axes1 u x e1 r1 -> cubic_run lin axes2 v x e2 r2 ->
  same_grid axes axes1 -> same_grid axes axes2 -> values_within d w (combination a b u v) -> (forall a, In a axes -> spacing_ratio_at_most a rho) ->
  exists y y1 y2, r = Some y /\ r1 = Some y1 /\ r2 = Some y2 /\
    Rabs (y - (a * y1 + b * y2)) <= e + Rabs a * e1 + Rabs b * e2 + prod_upto (length axes) (fun k => cubic_reach_gain lin rho (outside_by axes x k)) * d.
Proof.
  intros H H1 H2 S1 S2 Hd Hr. assert (V := (cubic_run_value _ _ _ _ _ _ H)). assert (G := proj1 V). assert (Lx := proj1 (proj2 V)).
  exact (combination_close 4 (cub1 lin) (cub_lf lin) (cub_mass lin) (cub_node lin) (@same_cub1 lin) (@rescaled_cub1 lin) (@reflected_cub1 lin) 1 (cub1_crop lin) a b axes1 axes2 axes u v w x e e1 e2 r r1 r2 d _ V (cubic_run_value _ _ _ _ _ _ H1) (cubic_run_value _ _ _ _ _ _ H2) S1 S2 Hd
    (fun V Hd => cub_gain lin rho axes x Lx G Hr V d Hd)).
Qed.
Theorem C94_proof_linear_nested a1 a2 axes2 x1 x2 w w2 e e1 e2 r r2 d :
  length x1 = length a1 -> length x2 = length a2 ->
  linear_run (a1 ++ a2) w (x1 ++ x2) e r -> linear_run axes2 w2 x2 e2 r2 -> same_grid a2 axes2 ->
  (forall j, in_shape (map npts a2) j -> exists axes1 u y1, linear_run axes1 u x1 e1 (Some y1) /\ same_grid a1 axes1 /\
     block_data (map npts a1) (map npts a2) j w u /\ Rabs (y1 - entry 0 (map npts a2) w2 j) <= d) ->
  exists y y2, r = Some y /\ r2 = Some y2 /\ Rabs (y - y2) <= e + e2 + reach_factor a2 x2 * (e1 + d).
Proof.
  intros L1 L2 H H2 S2 P. assert (V := (linear_run_value _ _ _ _ _ H)). assert (G := proj1 V). destruct (good_app _ _ _ G) as (G1 & G2).
  refine (nested_close 2 lin1 lin_lf lin_mass lin_node same_lin1 rescaled_lin1 reflected_lin1 0 lin1_crop a1 a2 axes2 x1 x2 w w2 e e1 e2 r r2 d _ L1 L2 V (linear_run_value _ _ _ _ _ H2) S2 _ (lin_gain a2 x2 L2 G2)).
  intros j Hj. destruct (P j Hj) as (axes1 & u & y1 & H1 & S1 & B & D).
  exists axes1, u, (Some y1), y1. split; [exact (linear_run_value _ _ _ _ _ H1)|]. auto.
Qed.
Theorem C94_proof_cubic_nested lin rho a1 a2 axes2 x1 x2 w w2 e e1 e2 r r2 d :
  length x1 = length a1 -> length x2 = length a2 ->
  cubic_run lin (a1 ++ a2) w (x1 ++ x2) e r -> cubic_run lin axes2 w2 x2 e2 r2 -> same_grid a2 axes2 ->
  (forall j, in_shape (map npts a2) j -> exists axes1 u y1, cubic_run lin axes1 u x1 e1 (Some y1) /\ same_grid a1 axes1 /\
     block_data (map npts a1) (map npts a2) j w u /\ Rabs (y1 - entry 0 (map npts a2) w2 j) <= d) -> (forall a, In a a2 -> spacing_ratio_at_most a rho) ->
  exists y y2, r = Some y /\ r2 = Some y2 /\ Rabs (y - y2) <= e + e2 + prod_upto (length a2) (fun k => cubic_reach_gain lin rho (outside_by a2 x2 k)) * (e1 + d).
Proof.
  intros L1 L2 H H2 S2 P Hr. assert (V := (cubic_run_value _ _ _ _ _ _ H)). assert (G := proj1 V). destruct (good_app _ _ _ G) as (G1 & G2).
  refine (nested_close 4 (cub1 lin) (cub_lf lin) (cub_mass lin) (cub_node lin) (@same_cub1 lin) (@rescaled_cub1 lin) (@reflected_cub1 lin) 1 (cub1_crop lin) a1 a2 axes2 x1 x2 w w2 e e1 e2 r r2 d _ L1 L2 V (cubic_run_value _ _ _ _ _ _ H2) S2 _ (cub_gain lin rho a2 x2 L2 G2 Hr)).
  intros j Hj. destruct (P j Hj) as (axes1 & u & y1 & H1 & S1 & B & D).
  exists axes1, u, (Some y1), y1. split; [exact (cubic_run_value _ _ _ _ _ _ H1)|]. auto.
Qed.
Theorem C94_proof_resample axes axes' vals vals' x e e' en r r' d :
  linear_run axes vals x e r -> linear_run axes' vals' x e' r' -> Forall2 refines axes axes' ->
  (forall idx, in_shape (map npts axes') idx -> exists axesn yn, linear_run axesn vals (node_pos axes' idx) en (Some yn) /\
     same_grid axes axesn /\ Rabs (yn - entry 0 (map npts axes') vals' idx) <= d) ->
  exists y y', r = Some y /\ r' = Some y' /\ Rabs (y - y') <= e + e' + reach_factor axes' x * (en + d).
Proof.
  intros H H' Hr P. assert (V := linear_run_value _ _ _ _ _ H). assert (V' := linear_run_value _ _ _ _ _ H').
  refine (refine_close axes axes' vals vals' x e e' en r r' d _ V V' Hr _ (lin_gain axes' x (proj1 (proj2 V')) (proj1 V'))).
  intros idx Hi. destruct (P idx Hi) as (axesn & yn & Hn & S & D).
  exists axesn, (Some yn), yn. split; [exact (linear_run_value _ _ _ _ _ Hn)|]. auto.
Qed.
