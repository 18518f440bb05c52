(** Properties of the multilinear, multicubic and nearest interpolators in exact arithmetic
    (real numbers): C01-C10, C20-C24, C41. The interpolators the theorems range over are
    listed in Interpolators.v, the notions used in the statements are in SpecReal.v.
    [dom] is the set of points whose cell number is representable (all points for
    rectilinear grids); elsewhere evaluation returns an error. *)
From Coq Require Import Reals Lra PeanoNat Bool Permutation.
From Verif Require Import Base Ops RInst ModelLinear ModelNearest ModelCubic ModelOneDim Spec SpecReal Interpolators.
From Verif Require Import RProofs RProofs2 RProofs3 ExampleReal.
Open Scope R_scope.
Unset Implicit Arguments.

Ltac each_axis := intros [|[|[|?k]]] ?a ?Hk; simpl in Hk; try discriminate;
  inversion Hk; subst; clear Hk; simpl.
Ltac fits := intros [|[|[|?k]]] ?Hk; simpl in *; try lia; unfold isize_min, isize_max; simpl; split; lra.

(** * C01: the multilinear formula of the enclosing cell *)
Theorem C01_multilinear :
  forall c vals axes dom eval x os, multilinear c vals axes dom eval ->
  in_cells axes x os -> dom x ->
  eval x = Ok (corner_sum (entry 0 (map npts axes) vals) os (local_coords axes x os)).
Proof. exact C01_proof. Qed.
Theorem C01_cell_exists :
  forall c vals axes dom eval x, multilinear c vals axes dom eval ->
  length x = length axes -> exists os, in_cells axes x os.
Proof. exact C01_cells. Qed.
Theorem C01_cell_corners :
  forall axes x os b, in_cells axes x os -> In b (corners (length os)) ->
  in_shape (map npts axes) (corner_index os b).
Proof. exact corner_in_shape. Qed.
Example C01_multilinear_ex :
  rl_eval [1 / 2; 2] = Ok ((1 + 2 + 4 + 8) / 4) /\ rlu_eval [5; 7] = Ok 60.
Proof.
  split.
  - rewrite (@C01_multilinear _ _ _ _ _ [1 / 2; 2] [0%Z; 0%Z] rl_ok).
    + f_equal. unfold corner_sum, entry. simpl. unfold local_coord. simpl. lra.
    + split; auto. split; auto. each_axis; split; simpl; try lia; split; auto; right; lra.
    + fits.
  - rewrite (@C01_multilinear _ _ _ _ _ [5; 7] [1%Z; 0%Z] rlu_ok).
    + f_equal. unfold corner_sum, entry. simpl. unfold local_coord. simpl. lra.
    + split; auto. split; auto. each_axis; unfold in_cell, list_axis; simpl; split; try lia; split; auto; right; lra.
    + exact I.
Qed.
Print Assumptions C01_multilinear.
Print Assumptions C01_cell_exists.
Print Assumptions C01_cell_corners.

(** * C02: multi-affine data *)
Theorem C02_multilinear :
  forall c vals axes dom eval f x, multilinear c vals axes dom eval ->
  affine_in_each (length axes) f -> samples axes vals f ->
  length x = length axes -> dom x -> eval x = Ok (f x).
Proof. exact C02_proof. Qed.
(** f(u,v) = 1 + 2u - v + 3uv on the unevenly spaced grid, inside and outside. *)
Definition bilin (x : list R) : R := match x with [u; v] => 1 + 2 * u - v + 3 * u * v | _ => 0 end.
Definition bilin_vals : list R := [2; -2; 1; 9; -2; 42].
Example C02_multilinear_ex : exists eval,
  multilinear rplain bilin_vals (rect_axes ru_grids) everywhere eval /\
  eval [1 / 2; 1] = Ok (bilin [1 / 2; 1]) /\ eval [-3; 40] = Ok (bilin [-3; 40]).
Proof.
  assert (H : multilinear rplain bilin_vals (rect_axes ru_grids) everywhere
    (mlc_interp_one ROps rplain (mkRect ru_grids [3%Z; 2%Z] bilin_vals)))
    by (apply multilinear_rectilinear; [rrect_ok|sorted_ok|new_ok]).
  assert (A : affine_in_each (length (rect_axes ru_grids)) bilin).
  { intros [|[|k]] [|y0 [|y1 [|]]] Hk Hy; simpl in *; try lia.
    - exists (1 - y1), (2 + 3 * y1). intros; lra.
    - exists (1 + 2 * y0), (-1 + 3 * y0). intros; lra. }
  assert (S : samples (rect_axes ru_grids) bilin_vals bilin).
  { intros idx Hi. inversion Hi as [|? i ? ? Hi0 Hi']; subst. inversion Hi' as [|? j ? ? Hj0 Hj']; subst.
    inversion Hj'; subst. simpl in Hi0, Hj0. unfold zlen in Hi0, Hj0. simpl in Hi0, Hj0.
    assert (Ei : (i = 0 \/ i = 1 \/ i = 2)%Z) by lia. assert (Ej : (j = 0 \/ j = 1)%Z) by lia.
    destruct Ei as [-> | [-> | ->]], Ej as [-> | ->]; unfold entry; simpl; lra. }
  eexists. split; [exact H|].
  split; (eapply C02_multilinear; [exact H|exact A|exact S|reflexivity|exact I]).
Qed.
Print Assumptions C02_multilinear.

(** * C03: grid nodes *)
Theorem C03_multilinear :
  forall c vals axes dom eval idx, multilinear c vals axes dom eval ->
  in_shape (map npts axes) idx ->
  eval (node_pos axes idx) = Ok (entry 0 (map npts axes) vals idx).
Proof. exact C03_proof_linear. Qed.
Theorem C03_multicubic :
  forall c lin vals axes dom eval idx, multicubic c lin vals axes dom eval ->
  in_shape (map npts axes) idx ->
  eval (node_pos axes idx) = Ok (entry 0 (map npts axes) vals idx).
Proof. exact C03_proof_cubic. Qed.
Theorem C03_nearest :
  forall c vals axes dom eval idx, nearest_nd c vals axes dom eval ->
  in_shape (map npts axes) idx ->
  eval (node_pos axes idx) = Ok (entry 0 (map npts axes) vals idx).
Proof. exact C03_proof_nearest. Qed.
Example C03_ex : rlu_eval [4; -1] = Ok 16 /\ rcu_eval true [3; 7] = Ok 189 /\ rnu_eval [4; -1] = Ok 16.
Proof.
  assert (S1 : in_shape (map npts (rect_axes ru_grids)) [2%Z; 0%Z])
    by (repeat constructor; unfold zlen; simpl; lia).
  assert (S2 : in_shape (map npts (rect_axes rcu_grids)) [2%Z; 4%Z])
    by (repeat constructor; unfold zlen; simpl; lia).
  split; [|split].
  - exact (C03_multilinear _ _ _ _ _ _ rlu_ok S1).
  - exact (C03_multicubic _ _ _ _ _ _ _ (rcu_ok true) S2).
  - exact (C03_nearest _ _ _ _ _ _ rnu_ok S1).
Qed.
Print Assumptions C03_multilinear.
Print Assumptions C03_multicubic.
Print Assumptions C03_nearest.

(** * C04: between the corner values *)
Theorem C04_corners :
  forall c vals axes dom eval x os m M, multilinear c vals axes dom eval ->
  inside_grid axes x -> in_cells axes x os ->
  (forall b, In b (corners (length os)) -> m <= entry 0 (map npts axes) vals (corner_index os b) <= M) ->
  exists r, eval x = Ok r /\ m <= r <= M.
Proof. exact C04_proof. Qed.
Theorem C04_array :
  forall c vals axes dom eval x m M, multilinear c vals axes dom eval ->
  inside_grid axes x -> Forall (fun v => m <= v <= M) vals ->
  exists r, eval x = Ok r /\ m <= r <= M.
Proof. exact C04_proof_global. Qed.
Example C04_ex : (exists r, rl_eval [3 / 2; 3] = Ok r /\ 4 <= r <= 32)
  /\ (exists r, rlu_eval [1 / 3; 0] = Ok r /\ 1 <= r <= 32).
Proof.
  split.
  - apply (@C04_corners _ _ _ _ _ [3 / 2; 3] [1%Z; 0%Z] 4 32 rl_ok).
    + split; auto. each_axis; lra.
    + split; auto. split; auto. each_axis; split; simpl; try lia; split; auto; right; lra.
    + intros b Hb. simpl in Hb. unfold entry. 
      destruct Hb as [<-|[<-|[<-|[<-|[]]]]]; simpl; lra.
  - apply (@C04_array _ _ _ _ _ [1 / 3; 0] 1 32 rlu_ok).
    + split; auto. each_axis; lra.
    + repeat constructor; lra.
Qed.
Print Assumptions C04_corners.
Print Assumptions C04_array.

(** * C05, C07, C08: continuity and differentiability *)
Theorem C05_multilinear :
  forall c vals axes dom eval, multilinear c vals axes dom eval ->
  exists F, (forall x, length x = length axes -> dom x -> eval x = Ok (F x)) /\
    forall x, length x = length axes -> continuous_at (length axes) F x.
Proof. exact C05_proof. Qed.
Example C05_multilinear_ex : exists F, (forall x, length x = 2%nat -> rlu_eval x = Ok (F x)) /\
  continuous_at 2 F [1; -1] /\ F [1; -1] = 4.
Proof.
  destruct (C05_multilinear _ _ _ _ _ rlu_ok) as (F & E & C). exists F. split; [|split].
  - intros x Lx. apply E; [exact Lx|exact I].
  - apply C. reflexivity.
  - assert (N : rlu_eval [1; -1] = Ok 4).
    { assert (S1 : in_shape (map npts (rect_axes ru_grids)) [1%Z; 0%Z])
        by (repeat constructor; unfold zlen; simpl; lia).
      exact (C03_multilinear _ _ _ _ _ _ rlu_ok S1). }
    rewrite E in N; [|reflexivity|exact I]. congruence.
Qed.
Print Assumptions C05_multilinear.

(** * C06: per-axis quadratics *)
Theorem C06_quadratic :
  forall c lin vals axes dom eval f x, multicubic c lin vals axes dom eval ->
  quadratic_in_each (length axes) f -> samples axes vals f ->
  length x = length axes -> dom x -> inside_grid axes x \/ lin = false -> eval x = Ok (f x).
Proof. exact C06_proof_quadratic. Qed.
Theorem C06_affine :
  forall c lin vals axes dom eval f x, multicubic c lin vals axes dom eval ->
  affine_in_each (length axes) f -> samples axes vals f ->
  length x = length axes -> dom x -> eval x = Ok (f x).
Proof. exact C06_proof_affine. Qed.
(** The value array of the example is n^2 - 7 for n = 5 i + j, quadratic in the indices, hence
    in the coordinates of the regular grid. *)
Definition biquad (x : list R) : R :=
  match x with [u; v] => (5 * u + (v + 1) / 2) * (5 * u + (v + 1) / 2) - 7 | _ => 0 end.
Example C06_ex : rc_eval true [5 / 2; 0] = Ok (13 * 13 - 7) /\ rc_eval false [-10; 9] = Ok (45 * 45 - 7).
Proof.
  assert (A : quadratic_in_each (length rc_axes) biquad).
  { intros [|[|k]] [|y0 [|y1 [|]]] Hk Hy; simpl in *; try lia.
    - exists ((y1 + 1) / 2 * ((y1 + 1) / 2) - 7), (5 * (y1 + 1)), 25. intros; lra.
    - exists ((5 * y0 + 1 / 2) * (5 * y0 + 1 / 2) - 7), (5 * y0 + 1 / 2), (1 / 4). intros; lra. }
  assert (S : samples rc_axes rc_vals biquad).
  { intros idx Hi. inversion Hi as [|? i ? ? Hi0 Hi']; subst. inversion Hi' as [|? j ? ? Hj0 Hj']; subst.
    inversion Hj'; subst. simpl in Hi0, Hj0.
    assert (Ei : (i = 0 \/ i = 1 \/ i = 2 \/ i = 3)%Z) by lia. assert (Ej : (j = 0 \/ j = 1 \/ j = 2 \/ j = 3 \/ j = 4)%Z) by lia.
    destruct Ei as [-> | [-> | [-> | ->]]], Ej as [-> | [-> | [-> | [-> | ->]]]]; unfold entry; simpl; lra. }
  split.
  - rewrite (C06_quadratic _ _ _ _ _ _ biquad [5 / 2; 0] (rc_ok true)); auto.
    + f_equal. simpl. lra.
    + fits.
    + left. split; auto. each_axis; lra.
  - rewrite (C06_quadratic _ _ _ _ _ _ biquad [-10; 9] (rc_ok false)); auto.
    + f_equal. simpl. lra.
    + fits.
Qed.
Print Assumptions C06_quadratic.
Print Assumptions C06_affine.

Theorem C07_multicubic :
  forall c lin vals axes dom eval, multicubic c lin vals axes dom eval ->
  exists F, (forall x, length x = length axes -> dom x -> eval x = Ok (F x)) /\
    forall x, length x = length axes -> continuous_at (length axes) F x.
Proof. exact C07_proof. Qed.
Print Assumptions C07_multicubic.

Theorem C08_multicubic :
  forall c lin vals axes dom eval, multicubic c lin vals axes dom eval ->
  exists F, (forall x, length x = length axes -> dom x -> eval x = Ok (F x)) /\
    continuously_differentiable (length axes) F.
Proof. exact C08_proof'. Qed.
Example C08_multicubic_ex : forall lin, exists F, (forall x, length x = 2%nat -> rcu_eval lin x = Ok (F x)) /\
  (forall x, length x = 2%nat -> continuous_at 2 F x) /\ continuously_differentiable 2 F.
Proof.
  intros lin. destruct (C08_proof (rcu_ok lin)) as (F & E & C & D). exists F. split; [|split]; auto.
  intros x Lx. apply E; [exact Lx|exact I].
Qed.
Print Assumptions C08_multicubic.

(** * C09: boundary cells and extrapolation along axis k *)
Theorem C09_low :
  forall c lin vals axes dom eval x k a, multicubic c lin vals axes dom eval ->
  length x = length axes -> nth_error axes k = Some a ->
  exists u v w, forall t, t <= coord a 1 -> dom (upd x k t) ->
    (coord a 0 <= t \/ lin = false -> eval (upd x k t) = Ok (u + v * t + w * t * t)) /\
    (t <= coord a 0 -> lin = true -> eval (upd x k t)
       = Ok (u + v * coord a 0 + w * coord a 0 * coord a 0 + (v + 2 * w * coord a 0) * (t - coord a 0))).
Proof. exact C09_proof_low. Qed.
Theorem C09_high :
  forall c lin vals axes dom eval x k a, multicubic c lin vals axes dom eval ->
  length x = length axes -> nth_error axes k = Some a ->
  let e := coord a (npts a - 1) in
  exists u v w, forall t, coord a (npts a - 2) <= t -> dom (upd x k t) ->
    (t <= e \/ lin = false -> eval (upd x k t) = Ok (u + v * t + w * t * t)) /\
    (e <= t -> lin = true -> eval (upd x k t) = Ok (u + v * e + w * e * e + (v + 2 * w * e) * (t - e))).
Proof. exact C09_proof_high. Qed.
Theorem C09_flag_has_no_effect_inside :
  forall c c' lin lin' vals axes dom dom' eval eval' x,
  multicubic c lin vals axes dom eval -> multicubic c' lin' vals axes dom' eval' ->
  inside_grid axes x -> eval x = eval' x.
Proof. exact C09_proof_inside. Qed.
Example C09_ex : rcu_eval true [2; 6] = rcu_eval false [2; 6] /\
  exists u v w, rcu_eval true [-7; 6] = Ok (u + v * 0 + w * 0 * 0 + (v + 2 * w * 0) * (-7 - 0)) /\
    rcu_eval true [1 / 2; 6] = Ok (u + v * (1 / 2) + w * (1 / 2) * (1 / 2)).
Proof.
  split.
  - eapply C09_flag_has_no_effect_inside; [apply rcu_ok|apply rcu_ok|]. split; auto. each_axis; lra.
  - destruct (C09_low _ _ _ _ _ _ [0; 6] 0%nat _ (rcu_ok true) eq_refl eq_refl) as (u & v & w & H).
    exists u, v, w. split.
    + apply (H (-7)); simpl; try lra; auto. exact I.
    + apply (H (1 / 2)); simpl; try lra. exact I.
Qed.
Print Assumptions C09_low.
Print Assumptions C09_high.
Print Assumptions C09_flag_has_no_effect_inside.

(** * C10: regular and rectilinear descriptions of the same grid *)
Theorem C10_multilinear :
  forall c c' vals axes axes' dom dom' eval eval' x,
  multilinear c vals axes dom eval -> multilinear c' vals axes' dom' eval' ->
  same_grid axes axes' -> length x = length axes -> dom x -> dom' x -> eval x = eval' x.
Proof. exact same_grid_linear. Qed.
Theorem C10_multicubic :
  forall c c' lin vals axes axes' dom dom' eval eval' x,
  multicubic c lin vals axes dom eval -> multicubic c' lin vals axes' dom' eval' ->
  same_grid axes axes' -> length x = length axes -> dom x -> dom' x -> eval x = eval' x.
Proof. exact same_grid_cubic. Qed.
Theorem C10_nearest :
  forall c c' vals axes axes' dom dom' eval eval' x,
  nearest_nd c vals axes dom eval -> nearest_nd c' vals axes' dom' eval' ->
  same_grid axes axes' -> length x = length axes -> dom x -> dom' x -> eval x = eval' x.
Proof. exact same_grid_nearest. Qed.
Lemma rl_same : same_grid rl_axes (rect_axes rl_grids).
Proof.
  repeat constructor; simpl; intros i Hi.
  - assert (E : (i = 0 \/ i = 1 \/ i = 2)%Z) by lia. destruct E as [-> | [-> | ->]]; simpl; lra.
  - assert (E : (i = 0 \/ i = 1)%Z) by lia. destruct E as [-> | ->]; simpl; lra.
Qed.
Lemma rc_same : same_grid rc_axes (rect_axes rc_grids).
Proof.
  repeat constructor; simpl; intros i Hi.
  - assert (E : (i = 0 \/ i = 1 \/ i = 2 \/ i = 3)%Z) by lia. destruct E as [-> | [-> | [-> | ->]]]; simpl; lra.
  - assert (E : (i = 0 \/ i = 1 \/ i = 2 \/ i = 3 \/ i = 4)%Z) by lia. destruct E as [-> | [-> | [-> | [-> | ->]]]]; simpl; lra.
Qed.
Example C10_ex : rl_eval [7; -3 / 2] = rlc_eval [7; -3 / 2] /\
  rc_eval true [1; 9 / 7] = rcc_eval true [1; 9 / 7] /\ rn_eval [3 / 2; 2] = rnc_eval [3 / 2; 2].
Proof.
  split; [|split].
  - eapply C10_multilinear; [apply rl_ok|apply rlc_ok|apply rl_same|reflexivity| |exact I]. fits.
  - eapply C10_multicubic; [apply rc_ok|apply rcc_ok|apply rc_same|reflexivity| |exact I]. fits.
  - eapply C10_nearest; [apply rn_ok|apply rnc_ok|apply rl_same|reflexivity| |exact I]. fits.
Qed.
Print Assumptions C10_multilinear.
Print Assumptions C10_multicubic.
Print Assumptions C10_nearest.

(** * C20: linearity in the values *)
Theorem C20_multilinear :
  forall c c1 c2 a b u v axes dom1 dom2 dom ev1 ev2 ev x,
  multilinear c1 u axes dom1 ev1 -> multilinear c2 v axes dom2 ev2 ->
  multilinear c (combination a b u v) axes dom ev ->
  length x = length axes -> dom1 x -> dom2 x -> dom x ->
  exists r1 r2, ev1 x = Ok r1 /\ ev2 x = Ok r2 /\ ev x = Ok (a * r1 + b * r2).
Proof. exact C20_proof_linear. Qed.
Theorem C20_multicubic :
  forall c c1 c2 lin a b u v axes dom1 dom2 dom ev1 ev2 ev x,
  multicubic c1 lin u axes dom1 ev1 -> multicubic c2 lin v axes dom2 ev2 ->
  multicubic c lin (combination a b u v) axes dom ev ->
  length x = length axes -> dom1 x -> dom2 x -> dom x ->
  exists r1 r2, ev1 x = Ok r1 /\ ev2 x = Ok r2 /\ ev x = Ok (a * r1 + b * r2).
Proof. exact C20_proof_cubic. Qed.
Example C20_ex : exists ev r1 r2,
  multilinear rplain (combination 3 (-1) rl_vals bilin_vals) (rect_axes ru_grids) everywhere ev /\
  rlu_eval [2; 2] = Ok r1 /\ ev [2; 2] = Ok (3 * r1 + -1 * r2).
Proof.
  assert (H1 : multilinear rplain bilin_vals (rect_axes ru_grids) everywhere
    (mlc_interp_one ROps rplain (mkRect ru_grids [3%Z; 2%Z] bilin_vals)))
    by (apply multilinear_rectilinear; [rrect_ok|sorted_ok|new_ok]).
  assert (H2 : multilinear rplain (combination 3 (-1) rl_vals bilin_vals) (rect_axes ru_grids) everywhere
    (mlc_interp_one ROps rplain (mkRect ru_grids [3%Z; 2%Z] (combination 3 (-1) rl_vals bilin_vals))))
    by (apply multilinear_rectilinear; [rrect_ok|sorted_ok|new_ok]).
  destruct (C20_multilinear _ _ _ _ _ _ _ _ _ _ _ _ _ _ [2; 2] rlu_ok H1 H2 eq_refl I I I) as (r1 & r2 & E1 & _ & E).
  exists (mlc_interp_one ROps rplain (mkRect ru_grids [3%Z; 2%Z] (combination 3 (-1) rl_vals bilin_vals))), r1, r2. auto.
Qed.
Print Assumptions C20_multilinear.
Print Assumptions C20_multicubic.

(** * C21: change of units and origin of the axes *)
Theorem C21_multilinear :
  forall c c' vals st axes axes' dom dom' eval eval' x x',
  multilinear c vals axes dom eval -> multilinear c' vals axes' dom' eval' ->
  rescaled_grid st axes axes' x x' -> dom x -> dom' x' -> eval' x' = eval x.
Proof. exact C21_proof_linear. Qed.
Theorem C21_multicubic :
  forall c c' lin vals st axes axes' dom dom' eval eval' x x',
  multicubic c lin vals axes dom eval -> multicubic c' lin vals axes' dom' eval' ->
  rescaled_grid st axes axes' x x' -> dom x -> dom' x' -> eval' x' = eval x.
Proof. exact C21_proof_cubic. Qed.
Theorem C21_nearest :
  forall c c' vals st axes axes' dom dom' eval eval' x x',
  nearest_nd c vals axes dom eval -> nearest_nd c' vals axes' dom' eval' ->
  rescaled_grid st axes axes' x x' -> dom x -> dom' x' -> eval' x' = eval x.
Proof. exact C21_proof_nearest. Qed.
(** The 3 x 2 grid with the first axis in units of 1/1000 and the second moved by 10. *)
Example C21_ex : exists eval', 
  multilinear rplain rl_vals (rect_axes [[0; 1000; 2000]; [11; 13]]) everywhere eval' /\
  eval' [1500; 12] = rl_eval [3 / 2; 2].
Proof.
  exists (mlc_interp_one ROps rplain (mkRect [[0; 1000; 2000]; [11; 13]] [3%Z; 2%Z] rl_vals)).
  assert (H : multilinear rplain rl_vals (rect_axes [[0; 1000; 2000]; [11; 13]]) everywhere
     (mlc_interp_one ROps rplain (mkRect [[0; 1000; 2000]; [11; 13]] [3%Z; 2%Z] rl_vals)))
    by (apply multilinear_rectilinear; [rrect_ok|sorted_ok|new_ok]).
  split; [exact H|].
  apply (C21_multilinear _ _ _ [(1000, 0); (1, 10)] _ _ _ _ _ _ [3 / 2; 2] [1500; 12] rl_ok H).
  - simpl. unfold rescaled_axis. simpl. repeat split; try lra; intros i Hi.
    + assert (E : (i = 0 \/ i = 1 \/ i = 2)%Z) by lia. destruct E as [-> | [-> | ->]]; simpl; lra.
    + assert (E : (i = 0 \/ i = 1)%Z) by lia. destruct E as [-> | ->]; simpl; lra.
  - fits.
  - exact I.
Qed.
Print Assumptions C21_multilinear.
Print Assumptions C21_multicubic.
Print Assumptions C21_nearest.

(** * C22: order of the axes *)
Theorem C22_multilinear :
  forall c c' p vals vals' axes dom dom' eval eval' x,
  Permutation p (seq 0 (length axes)) ->
  multilinear c vals axes dom eval -> multilinear c' vals' (permute no_axis p axes) dom' eval' ->
  (forall idx, in_shape (map npts axes) idx ->
     entry 0 (map npts (permute no_axis p axes)) vals' (permute 0%Z p idx) = entry 0 (map npts axes) vals idx) ->
  length x = length axes -> dom x -> dom' (permute 0 p x) -> eval' (permute 0 p x) = eval x.
Proof. exact C22_proof_linear. Qed.
Theorem C22_multicubic :
  forall c c' lin p vals vals' axes dom dom' eval eval' x,
  Permutation p (seq 0 (length axes)) ->
  multicubic c lin vals axes dom eval -> multicubic c' lin vals' (permute no_axis p axes) dom' eval' ->
  (forall idx, in_shape (map npts axes) idx ->
     entry 0 (map npts (permute no_axis p axes)) vals' (permute 0%Z p idx) = entry 0 (map npts axes) vals idx) ->
  length x = length axes -> dom x -> dom' (permute 0 p x) -> eval' (permute 0 p x) = eval x.
Proof. exact C22_proof_cubic. Qed.
Theorem C22_nearest :
  forall c c' p vals vals' axes dom dom' eval eval' x,
  Permutation p (seq 0 (length axes)) ->
  nearest_nd c vals axes dom eval -> nearest_nd c' vals' (permute no_axis p axes) dom' eval' ->
  (forall idx, in_shape (map npts axes) idx ->
     entry 0 (map npts (permute no_axis p axes)) vals' (permute 0%Z p idx) = entry 0 (map npts axes) vals idx) ->
  length x = length axes -> dom x -> dom' (permute 0 p x) -> eval' (permute 0 p x) = eval x.
Proof. exact C22_proof_nearest. Qed.
(** The transposed 2 x 3 array. *)
Example C22_ex : exists eval',
  multilinear rplain [1; 4; 16; 2; 8; 32] (rect_axes [[-1; 3]; [0; 1; 4]]) everywhere eval' /\
  eval' [2; 3] = rlu_eval [3; 2].
Proof.
  exists (mlc_interp_one ROps rplain (mkRect [[-1; 3]; [0; 1; 4]] [2%Z; 3%Z] [1; 4; 16; 2; 8; 32])).
  assert (H : multilinear rplain [1; 4; 16; 2; 8; 32] (rect_axes [[-1; 3]; [0; 1; 4]]) everywhere
     (mlc_interp_one ROps rplain (mkRect [[-1; 3]; [0; 1; 4]] [2%Z; 3%Z] [1; 4; 16; 2; 8; 32])))
    by (apply multilinear_rectilinear; [rrect_ok|sorted_ok|new_ok]).
  split; [exact H|].
  refine (C22_multilinear _ _ [1%nat; 0%nat] _ _ (rect_axes ru_grids) _ _ _ _ [3; 2] (perm_swap 0%nat 1%nat []) rlu_ok H _ _ _ _).
  - intros idx Hi. inversion Hi as [|? i ? ? Hi0 Hi']; subst. inversion Hi' as [|? j ? ? Hj0 Hj']; subst.
    inversion Hj'; subst. unfold zlen in Hi0, Hj0. simpl in Hi0, Hj0.
    assert (Ei : (i = 0 \/ i = 1 \/ i = 2)%Z) by lia. assert (Ej : (j = 0 \/ j = 1)%Z) by lia.
    destruct Ei as [-> | [-> | ->]], Ej as [-> | ->]; reflexivity.
  - reflexivity.
  - exact I.
  - exact I.
Qed.
Print Assumptions C22_multilinear.
Print Assumptions C22_multicubic.
Print Assumptions C22_nearest.

(** * C23: reflection of any set of axes *)
Theorem C23_multilinear :
  forall c c' vals vals' flips axes axes' dom dom' eval eval' x x',
  multilinear c vals axes dom eval -> multilinear c' vals' axes' dom' eval' ->
  reflected_grid flips axes axes' x x' ->
  (forall idx, in_shape (map npts axes) idx ->
     entry 0 (map npts axes) vals' idx = entry 0 (map npts axes) vals (reflect_indices flips (map npts axes) idx)) ->
  dom x -> dom' x' -> eval' x' = eval x.
Proof. exact C23_proof_linear. Qed.
Theorem C23_multicubic :
  forall c c' lin vals vals' flips axes axes' dom dom' eval eval' x x',
  multicubic c lin vals axes dom eval -> multicubic c' lin vals' axes' dom' eval' ->
  reflected_grid flips axes axes' x x' ->
  (forall idx, in_shape (map npts axes) idx ->
     entry 0 (map npts axes) vals' idx = entry 0 (map npts axes) vals (reflect_indices flips (map npts axes) idx)) ->
  dom x -> dom' x' -> eval' x' = eval x.
Proof. exact C23_proof_cubic. Qed.
Example C23_ex : exists eval',
  multilinear rplain [16; 32; 4; 8; 1; 2] (rect_axes [[-4; -1; 0]; [-1; 3]]) everywhere eval' /\
  eval' [-9; 2] = rlu_eval [9; 2].
Proof.
  exists (mlc_interp_one ROps rplain (mkRect [[-4; -1; 0]; [-1; 3]] [3%Z; 2%Z] [16; 32; 4; 8; 1; 2])).
  assert (H : multilinear rplain [16; 32; 4; 8; 1; 2] (rect_axes [[-4; -1; 0]; [-1; 3]]) everywhere
     (mlc_interp_one ROps rplain (mkRect [[-4; -1; 0]; [-1; 3]] [3%Z; 2%Z] [16; 32; 4; 8; 1; 2])))
    by (apply multilinear_rectilinear; [rrect_ok|sorted_ok|new_ok]).
  split; [exact H|].
  apply (C23_multilinear _ _ _ _ [true; false] _ _ _ _ _ _ [9; 2] [-9; 2] rlu_ok H).
  - simpl. unfold reflected_axis, same_axis. simpl. repeat split; try lra; intros i Hi.
    unfold zlen in Hi. simpl in Hi.
    assert (E : (i = 0 \/ i = 1 \/ i = 2)%Z) by lia. destruct E as [-> | [-> | ->]]; simpl; lra.
  - intros idx Hi. inversion Hi as [|? i ? ? Hi0 Hi']; subst. inversion Hi' as [|? j ? ? Hj0 Hj']; subst.
    inversion Hj'; subst. unfold zlen in Hi0, Hj0. simpl in Hi0, Hj0.
    assert (Ei : (i = 0 \/ i = 1 \/ i = 2)%Z) by lia. assert (Ej : (j = 0 \/ j = 1)%Z) by lia.
    destruct Ei as [-> | [-> | ->]], Ej as [-> | ->]; reflexivity.
  - exact I.
  - exact I.
Qed.
Print Assumptions C23_multilinear.
Print Assumptions C23_multicubic.

(** * C24: nearest neighbour *)
Theorem C24_nearest :
  forall c vals axes dom eval x, nearest_nd c vals axes dom eval ->
  length x = length axes -> dom x ->
  (exists idx, nearest_nodes axes x idx) /\
  (forall idx, nearest_nodes axes x idx ->
     in_shape (map npts axes) idx /\ eval x = Ok (entry 0 (map npts axes) vals idx)).
Proof. exact C24_proof. Qed.
Theorem C24_stored_value_regular :
  forall F (o : Ops F) c dims starts steps vals s x r,
  usize_converts o -> reg_input c dims starts steps vals -> nr_new o c dims starts steps vals = Ok s ->
  length x = length dims -> nr_interp_one o c s x = Ok r -> In r vals.
Proof. exact C24_stored_reg. Qed.
Theorem C24_stored_value_rectilinear :
  forall F (o : Ops F) c grids vals s x r,
  rect_input c grids vals -> nc_new o c grids vals = Ok s ->
  length x = length grids -> nc_interp_one o c s x = Ok r -> In r vals.
Proof. exact C24_stored_rect. Qed.
(** [5/2; 9] is at the same distance from 1 and 4 on the first axis, and above the second. *)
Example C24_ex : rnu_eval [5 / 2; 9] = Ok 8.
Proof.
  destruct (C24_nearest _ _ _ _ _ [5 / 2; 9] rnu_ok eq_refl I) as (_ & H).
  refine (proj2 (H [1%Z; 1%Z] _)). split; auto. split; auto.
  each_axis; unfold nearest_node; simpl; unfold zlen; simpl; (split; [lia|]); intros j Hj.
  - assert (Ej : (j = 0 \/ j = 1 \/ j = 2)%Z) by lia.
    destruct Ej as [-> | [-> | ->]]; simpl; unfold Rabs; repeat destruct (Rcase_abs _); split; try lra; try lia.
  - assert (Ej : (j = 0 \/ j = 1)%Z) by lia.
    destruct Ej as [-> | ->]; simpl; unfold Rabs; repeat destruct (Rcase_abs _); split; try lra; try lia.
Qed.
Print Assumptions C24_nearest.
Print Assumptions C24_stored_value_regular.
Print Assumptions C24_stored_value_rectilinear.

(** * C41: the fma feature *)
Theorem C41_evaluation : forall ov,
  mlr_interp_one ROps (mkCfg true ov) = mlr_interp_one ROps (mkCfg false ov) /\
  mlrr_interp_one ROps (mkCfg true ov) = mlrr_interp_one ROps (mkCfg false ov) /\
  mlc_interp_one ROps (mkCfg true ov) = mlc_interp_one ROps (mkCfg false ov) /\
  mlcr_interp_one ROps (mkCfg true ov) = mlcr_interp_one ROps (mkCfg false ov) /\
  nr_interp_one ROps (mkCfg true ov) = nr_interp_one ROps (mkCfg false ov) /\
  nc_interp_one ROps (mkCfg true ov) = nc_interp_one ROps (mkCfg false ov) /\
  mcr_interp_one ROps (mkCfg true ov) = mcr_interp_one ROps (mkCfg false ov) /\
  mcrr_interp_one ROps (mkCfg true ov) = mcrr_interp_one ROps (mkCfg false ov) /\
  mcc_interp_one ROps (mkCfg true ov) = mcc_interp_one ROps (mkCfg false ov) /\
  mccr_interp_one ROps (mkCfg true ov) = mccr_interp_one ROps (mkCfg false ov).
Proof. exact C41_proof_one. Qed.
Theorem C41_interpn : forall ov,
  mlr_interpn ROps (mkCfg true ov) = mlr_interpn ROps (mkCfg false ov) /\
  mlc_interpn ROps (mkCfg true ov) = mlc_interpn ROps (mkCfg false ov) /\
  nr_interpn ROps (mkCfg true ov) = nr_interpn ROps (mkCfg false ov) /\
  nc_interpn ROps (mkCfg true ov) = nc_interpn ROps (mkCfg false ov) /\
  mcr_interpn ROps (mkCfg true ov) = mcr_interpn ROps (mkCfg false ov) /\
  mcc_interpn ROps (mkCfg true ov) = mcc_interpn ROps (mkCfg false ov).
Proof. exact C41_proof_interpn. Qed.
Theorem C41_one_dim : forall ov,
  linear1 ROps (mkCfg true ov) = linear1 ROps (mkCfg false ov) /\
  hold_last1 ROps (mkCfg true ov) = hold_last1 ROps (mkCfg false ov) /\
  r1_at ROps (mkCfg true ov) = r1_at ROps (mkCfg false ov) /\
  c1_at ROps (mkCfg true ov) = c1_at ROps (mkCfg false ov).
Proof. exact C41_proof_1d. Qed.
(** The two builds agree on a point where the result is a number. *)
Example C41_ex : mlr_interp_one ROps (mkCfg true true) (mkRegular rl_dims rl_starts rl_steps rl_vals) [1 / 2; 2]
  = Ok ((1 + 2 + 4 + 8) / 4).
Proof.
  destruct (C41_evaluation true) as (E & _). rewrite E. apply C01_multilinear_ex.
Qed.
Print Assumptions C41_evaluation.
Print Assumptions C41_interpn.
Print Assumptions C41_one_dim.

(** * C11, second part: any two interpolators of the same method, grid and values agree in exact
    arithmetic, whatever the build (flattened or recursive, with or without fma). *)
Theorem C11_exact_multilinear :
  forall c c' vals axes dom dom' eval eval' x,
  multilinear c vals axes dom eval -> multilinear c' vals axes dom' eval' ->
  length x = length axes -> dom x -> dom' x -> eval x = eval' x.
Proof. intros; eapply same_grid_linear; eauto using same_grid_refl. Qed.
Theorem C11_exact_multicubic :
  forall c c' lin vals axes dom dom' eval eval' x,
  multicubic c lin vals axes dom eval -> multicubic c' lin vals axes dom' eval' ->
  length x = length axes -> dom x -> dom' x -> eval x = eval' x.
Proof. intros; eapply same_grid_cubic; eauto using same_grid_refl. Qed.
Example C11_exact_ex : rl_eval [1 / 2; 2] = rlr_eval [1 / 2; 2].
Proof. eapply C11_exact_multilinear; [apply rl_ok|apply rlr_ok|reflexivity|fits|fits]. Qed.
Print Assumptions C11_exact_multilinear.
Print Assumptions C11_exact_multicubic.
