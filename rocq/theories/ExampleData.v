(** Concrete binary64 inputs used to show that hypotheses are satisfiable. *)
From Coq Require Import PeanoNat.
From Verif Require Import Base Ops FInst ModelLinear ModelNearest ModelCubic Spec GenLemmas.
From Flocq Require Import IEEE754.BinarySingleNaN.
Open Scope Z_scope.

(** 3 x 2 grid for the linear methods, values 1, 2.5, 4, ... *)
Definition z64 (n : Z) : f64 := f64_lit n 0.
Definition lin_dims : list Z := [3; 2].
Definition lin_starts : list f64 := [z64 0; z64 1].
Definition lin_steps : list f64 := [f64_lit 1 (-1); z64 2].
Definition lin_vals : list f64 := [z64 1; f64_lit 5 (-1); z64 4; z64 (-7); z64 11; f64_lit 3 (-3)].
Definition lin_vals' : list f64 := [z64 1; f64_lit 5 (-1); z64 4; z64 (-7); z64 99; z64 99].
Definition lin_pt : list f64 := [f64_lit 5 (-4); f64_lit 3 0].
Definition lin_grids : list (list f64) := [[z64 0; f64_lit 1 (-1); z64 2]; [z64 1; z64 3]].
Definition lin_s : regular f64 := mkRegular lin_dims lin_starts lin_steps lin_vals.
Definition lin_g : rectilinear f64 := mkRect lin_grids [3; 2] lin_vals.

(** 4 x 5 grid for the cubic methods. *)
Definition cub_dims : list Z := [4; 5].
Definition cub_starts : list f64 := [z64 0; z64 1].
Definition cub_steps : list f64 := [z64 1; f64_lit 1 (-2)].
Definition cub_vals : list f64 := map (fun n => z64 (Z.of_nat (n * n) - 7)) (seq 0 20).
Definition cub_pt : list f64 := [f64_lit 3 (-1); f64_lit 9 0].
Definition cub_grids : list (list f64) :=
  [[z64 0; z64 1; z64 3; z64 4]; [z64 (-1); z64 0; z64 1; f64_lit 3 (-1); z64 7]].
Definition cub_s (lin : bool) : @cubic_regular f64 :=
  mkCR (mkRegular cub_dims cub_starts cub_steps cub_vals) lin.
Definition cub_g (lin : bool) : @cubic_rect f64 := mkCC (mkRect cub_grids [4; 5] cub_vals) lin.

Definition plain : cfg := mkCfg false true.
Definition release : cfg := mkCfg false false.
Definition fused : cfg := mkCfg true false.

Ltac le_ok := apply Nat.leb_le; vm_compute; reflexivity.
Ltac reg_ok := split; [le_ok|split; [vm_compute; reflexivity|split; [vm_compute; reflexivity|
  split; [vm_compute; discriminate|right; vm_compute; reflexivity]]]].
Ltac rect_ok := split; [le_ok|split; [vm_compute; discriminate|right; vm_compute; reflexivity]].

Lemma lin_input c : reg_input c lin_dims lin_starts lin_steps lin_vals.
Proof. reg_ok. Qed.
Lemma lin_rinput c : rect_input c lin_grids lin_vals.
Proof. rect_ok. Qed.
Lemma cub_input c : reg_input c cub_dims cub_starts cub_steps cub_vals.
Proof. reg_ok. Qed.
Lemma cub_rinput c : rect_input c cub_grids cub_vals.
Proof. rect_ok. Qed.

(** Results are compared through booleans, so that no proof inside a float has to be
    normalised. *)
Definition is_ok {A} (r : outcome A) : bool := match r with Ok _ => true | _ => false end.
Definition ok_is (r : outcome f64) (v : f64) : bool :=
  match r with Ok a => Beqb a v | _ => false end.

Lemma is_ok_ex A (r : outcome A) : is_ok r = true -> exists a, r = Ok a.
Proof. destruct r; simpl; try discriminate; eauto. Qed.

Lemma lin_new : mlr_new F64Ops plain lin_dims lin_starts lin_steps lin_vals = Ok lin_s.
Proof.
  destruct (@is_ok_ex _ (mlr_new F64Ops plain lin_dims lin_starts lin_steps lin_vals)) as (s & E);
    [vm_compute; reflexivity|].
  rewrite E. destruct (mlr_new_inv F64Ops (lin_input _) E) as (_ & ->). reflexivity.
Qed.
Lemma lin_gnew : mlc_new F64Ops plain lin_grids lin_vals = Ok lin_g.
Proof.
  destruct (@is_ok_ex _ (mlc_new F64Ops plain lin_grids lin_vals)) as (s & E);
    [vm_compute; reflexivity|].
  rewrite E. destruct (mlc_new_inv F64Ops (lin_rinput _) E) as (_ & ->). reflexivity.
Qed.
Lemma cub_new lin : mcr_new F64Ops plain cub_dims cub_starts cub_steps cub_vals lin = Ok (cub_s lin).
Proof.
  destruct (@is_ok_ex _ (mcr_new F64Ops plain cub_dims cub_starts cub_steps cub_vals lin)) as (s & E);
    [destruct lin; vm_compute; reflexivity|].
  rewrite E. destruct (mcr_new_inv F64Ops lin (cub_input _) E) as (_ & ->). reflexivity.
Qed.
Lemma cub_gnew lin : mcc_new F64Ops plain cub_grids cub_vals lin = Ok (cub_g lin).
Proof.
  destruct (@is_ok_ex _ (mcc_new F64Ops plain cub_grids cub_vals lin)) as (s & E);
    [destruct lin; vm_compute; reflexivity|].
  rewrite E. destruct (mcc_new_inv F64Ops lin (cub_rinput _) E) as (_ & ->). reflexivity.
Qed.
