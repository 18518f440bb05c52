(** Constant data in one dimension, in floating point (C34). *)
From Coq Require Import Reals Lra Lia ZArith List Bool.
From Flocq Require Import Core.Core IEEE754.BinarySingleNaN.
From Verif Require Import Base Ops FInst ModelCore ModelOneDim Spec SpecOrder SpecIEEE SpecConst1D FConst1D.
From Verif Require Import ExampleData PropertiesFloat PropertiesFloat1D.
Import ListNotations.
Unset Implicit Arguments.
Open Scope R_scope.

(** * C34 for src/one_dim: constant data are reproduced exactly. On rectilinear grids for all
    coordinates whose differences do not overflow, inside and outside the grid. *)
Theorem C34_one_dim_rectilinear :
  forall prec emax (Hp : Prec_gt_0 prec) (He : Prec_lt_emax prec emax), let o := BOps Hp He in
  forall c (grid vals : list (binary_float prec emax)) g x r, (zlen vals <= isize_max)%Z -> increasing_grid o grid ->
  Forall moderate grid -> moderate x -> c1_new grid vals = Ok g -> Forall (fun v => is_real v r) vals ->
  (exists v, linear1 o c (c1_at o c g) x = Ok v /\ is_real v r) /\ (exists v, hold_last1 o c (c1_at o c g) x = Ok v /\ is_real v r).
Proof. exact const_rectilinear. Qed.

(** On regular grids if the computed ends of each cell differ; the error is that of an observation
    whose cell number is not an isize. *)
Theorem C34_one_dim_regular :
  forall prec emax (Hp : Prec_gt_0 prec) (He : Prec_lt_emax prec emax), let o := BOps Hp He in
  forall c (start h x : binary_float prec emax) vals g r, (2 <= zlen vals <= isize_max)%Z -> r1_new o c start h vals = Ok g ->
  nodes_apart Hp He start h (zlen vals) x -> Forall (fun v => is_real v r) vals ->
  (exists v w, linear1 o c (r1_at o c g) x = Ok v /\ is_real v r /\ hold_last1 o c (r1_at o c g) x = Ok w /\ is_real w r) \/
  (linear1 o c (r1_at o c g) x = Err msg_num /\ hold_last1 o c (r1_at o c g) x = Err msg_num).
Proof. exact const_regular. Qed.

(** That condition is needed: the grid that starts at 1 with step 2^-60 is accepted, its grid points
    all round to 1, and Linear1D of the data 1, 1, 1 at the observation 1 is NaN. *)
Theorem C34_one_dim_refuted :
  match r1_new F64Ops plain (z64 1) (f64_lit 1 (-60)) [z64 1; z64 1; z64 1] with
  | Ok g => match linear1 F64Ops plain (r1_at F64Ops plain g) (z64 1) with Ok v => is_nan v | _ => false end
  | _ => false end = true.
Proof. vm_compute. reflexivity. Qed.

Definition k_vals : list f64 := [f64_lit 3 (-3); f64_lit 3 (-3); f64_lit 3 (-3)].
Lemma k_vals_real : Forall (fun v => is_real v (3 / 8)) k_vals.
Proof. unfold k_vals. repeat (apply Forall_cons; [split; [reflexivity|real_lit]|]). apply Forall_nil. Qed.
Example C34_one_dim_rectilinear_ex : exists v,
  linear1 F64Ops plain (c1_at F64Ops plain (mkC1 q_grid k_vals)) (z64 3) = Ok v /\ is_real v (3 / 8).
Proof.
  apply (C34_one_dim_rectilinear _ _ Hp64 He64 plain q_grid k_vals (mkC1 q_grid k_vals) (z64 3) (3 / 8));
    [vm_compute; discriminate|exact q_inc|exact q_mod|apply small_lit; [reflexivity|apply Rabs_le; real_lit]|reflexivity|exact k_vals_real].
Qed.
Lemma strict_nonzero (w : f64) : is_finite_strict w = true -> B2R w <> 0.
Proof. destruct w as [s|s| |s m e He]; try discriminate. intros _. simpl. apply F2R_neq_0. simpl. destruct s; discriminate. Qed.
Definition apart_ok (x h a : f64) : bool :=
  let w := fsub F64Ops (fadd F64Ops a h) a in is_finite w && is_finite_strict w && is_finite (fsub F64Ops x a).
Lemma k_apart : nodes_apart Hp64 He64 (z64 0) (f64_lit 1 (-1)) (zlen k_vals) (f64_lit 3 (-2)).
Proof.
  intros i a Hi Ei. change (0 <= i <= 1)%Z in Hi.
  assert (T : apart_ok (f64_lit 3 (-2)) (f64_lit 1 (-1)) a = true).
  { assert (K : forall j, (j = 0 \/ j = 1)%Z ->
      match reg_node Hp64 He64 false (z64 0) (f64_lit 1 (-1)) j with Some b => apart_ok (f64_lit 3 (-2)) (f64_lit 1 (-1)) b | None => false end = true).
    { intros j [-> | ->]; vm_compute; reflexivity. }
    specialize (K i ltac:(lia)). rewrite Ei in K. exact K. }
  unfold apart_ok in T. apply andb_true_iff in T as (T & T3). apply andb_true_iff in T as (T1 & T2).
  cbv zeta. split; [exact T1|]. split; [apply strict_nonzero; exact T2|exact T3].
Qed.
Example C34_one_dim_regular_ex : exists g v, r1_new F64Ops plain (z64 0) (f64_lit 1 (-1)) k_vals = Ok g /\
  linear1 F64Ops plain (r1_at F64Ops plain g) (f64_lit 3 (-2)) = Ok v /\ is_real v (3 / 8).
Proof.
  assert (G : exists g, r1_new F64Ops plain (z64 0) (f64_lit 1 (-1)) k_vals = Ok g) by (apply is_ok_ex; vm_compute; reflexivity).
  destruct G as (g & Hg).
  assert (T : is_ok (do g <- r1_new F64Ops plain (z64 0) (f64_lit 1 (-1)) k_vals ; linear1 F64Ops plain (r1_at F64Ops plain g) (f64_lit 3 (-2))) = true)
    by (vm_compute; reflexivity).
  rewrite Hg in T. cbn [bind] in T.
  destruct (C34_one_dim_regular _ _ Hp64 He64 plain (z64 0) (f64_lit 1 (-1)) (f64_lit 3 (-2)) k_vals g (3 / 8))
    as [(v & w & E & V & _)|(E & _)]; [vm_compute; split; discriminate|exact Hg|exact k_apart|exact k_vals_real|exists g, v; auto|].
  exfalso. apply (f_equal is_ok) in E. assert (K : true = false) by exact (eq_trans (eq_sym T) E). discriminate K.
Qed.

Print Assumptions C34_one_dim_rectilinear.
Print Assumptions C34_one_dim_regular.
Print Assumptions C34_one_dim_refuted.
