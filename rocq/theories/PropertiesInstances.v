(** Concrete cases: hypotheses of C14-C19 and C37 that are not shown beside the theorems. *)
From Coq Require Import PeanoNat.
From Flocq Require Import IEEE754.BinarySingleNaN.
From Verif Require Import Base Ops FInst ModelCore ModelLinear ModelNearest ModelCubic ModelOneDim Spec.
From Verif Require Import CoreLemmas GenLemmas GenProofs GenProofs3 ExampleData PropertiesGeneric.
Open Scope string_scope.
Open Scope Z_scope.

(** Data: 7 axes of 2 nodes, 5 axes of 4 nodes, 9 axes. *)
Definition d7 : list Z := repeat 2 7.
Definition st7 : list f64 := repeat (z64 0) 7.
Definition sp7 : list f64 := repeat (z64 1) 7.
Definition v7 : list f64 := repeat (z64 3) 128.
Definition g7 : list (list f64) := repeat [z64 0; z64 1] 7.
Definition d5 : list Z := repeat 4 5.
Definition st5 : list f64 := repeat (z64 0) 5.
Definition sp5 : list f64 := repeat (z64 1) 5.
Definition v5 : list f64 := repeat (z64 3) 1024.
Definition g5 : list (list f64) := repeat [z64 0; z64 1; z64 2; z64 3] 5.
Definition d9 : list Z := repeat 4 9.
Definition g9 : list (list f64) := repeat [z64 0; z64 1; z64 2; z64 3] 9.
(** Observations: two good points; a NaN. *)
Definition obs2 : list (list f64) := [[z64 7; B754_nan]; [z64 2; z64 1]].
Definition good2 : list (list f64) := [[z64 7; z64 0]; [z64 2; z64 1]].
Definition nan_obs (n : nat) : list (list f64) := repeat [B754_nan] n.
Definition one_obs (n : nat) : list (list f64) := repeat [z64 1] n.
Definition out1 : list f64 := [z64 5].
Definition out2 : list f64 := [z64 5; z64 6].
Definition on_grid : f64 -> outcome f64 :=
  linear1 F64Ops plain (r1_at F64Ops plain (mkR1 (z64 0) (z64 1) (z64 1) [z64 4; z64 5])).

Ltac fit := let k := fresh in intros k; do 10 (destruct k as [|k]; [vm_compute; split; congruence|]); vm_compute; split; congruence.
Ltac each := repeat (apply Forall_cons; [reflexivity|]); apply Forall_nil.
Ltac between := split; apply Nat.leb_le; reflexivity.
Ltac fails := split; [apply Nat.ltb_lt; reflexivity|split; [reflexivity|split; [intros j Hj; lia|vm_compute; reflexivity]]].

Lemma lin_fit : prefix_products_fit (map zlen lin_grids). Proof. fit. Qed.
Lemma cub_fit : prefix_products_fit cub_dims. Proof. fit. Qed.
Lemma cub_gfit : prefix_products_fit (map zlen cub_grids). Proof. fit. Qed.
Lemma d9_fit : prefix_products_fit d9. Proof. fit. Qed.
Lemma g9_fit : prefix_products_fit (map zlen g9). Proof. fit. Qed.
Lemma d7_input c : reg_input c d7 st7 sp7 v7. Proof. reg_ok. Qed.
Lemma g7_input c : rect_input c g7 v7. Proof. rect_ok. Qed.
Lemma d5_input c : reg_input c d5 st5 sp5 v5. Proof. reg_ok. Qed.
Lemma g5_input c : rect_input c g5 v5. Proof. rect_ok. Qed.
Definition s7 : regular f64 := mkRegular d7 st7 sp7 v7.
Definition s5 : @cubic_regular f64 := mkCR (mkRegular d5 st5 sp5 v5) true.
Lemma new7 : mlrr_new F64Ops plain 7 d7 st7 sp7 v7 = Ok s7.
Proof.
  destruct (@is_ok_ex _ (mlrr_new F64Ops plain 7 d7 st7 sp7 v7)) as (s & E); [vm_compute; reflexivity|].
  rewrite E. destruct (mlrr_new_inv F64Ops 7 (d7_input _) E) as (_ & -> & _). reflexivity.
Qed.
Lemma new5 : mcrr_new F64Ops plain 5 d5 st5 sp5 v5 true = Ok s5.
Proof.
  destruct (@is_ok_ex _ (mcrr_new F64Ops plain 5 d5 st5 sp5 v5 true)) as (s & E); [vm_compute; reflexivity|].
  rewrite E. destruct (mcrr_new_inv F64Ops 5 true (d5_input _) E) as (_ & -> & _). reflexivity.
Qed.
Lemma gnew7 : mlcr_new F64Ops plain 7 g7 v7 = Ok (mkRect g7 (map zlen g7) v7).
Proof.
  destruct (@is_ok_ex _ (mlcr_new F64Ops plain 7 g7 v7)) as (s & E); [vm_compute; reflexivity|].
  rewrite E. destruct (mlcr_new_inv F64Ops 7 (g7_input _) E) as (_ & -> & _). reflexivity.
Qed.
Lemma gnew5 : mccr_new F64Ops plain 5 g5 v5 true = Ok (mkCC (mkRect g5 (map zlen g5) v5) true).
Proof.
  destruct (@is_ok_ex _ (mccr_new F64Ops plain 5 g5 v5 true)) as (s & E); [vm_compute; reflexivity|].
  rewrite E. destruct (mccr_new_inv F64Ops 5 true (g5_input _) E) as (_ & -> & _). reflexivity.
Qed.
Lemma lin_new' : mlr_new F64Ops plain lin_dims lin_starts lin_steps lin_vals' = Ok (mkRegular lin_dims lin_starts lin_steps lin_vals').
Proof.
  destruct (@is_ok_ex _ (mlr_new F64Ops plain lin_dims lin_starts lin_steps lin_vals')) as (s & E); [vm_compute; reflexivity|].
  rewrite E. assert (I : reg_input plain lin_dims lin_starts lin_steps lin_vals') by reg_ok.
  destruct (mlr_new_inv F64Ops I E) as (_ & ->). reflexivity.
Qed.

(** * C14 *)
Example C14_linear_regular_ex := @C14_linear_regular f64 F64Ops plain lin_dims lin_starts lin_steps lin_vals C14_sizes_ex.
Example C14_nearest_regular_ex := @C14_nearest_regular f64 F64Ops plain lin_dims lin_starts lin_steps lin_vals C14_sizes_ex.
Example C14_linear_regular_recursive_ex := @C14_linear_regular_recursive f64 F64Ops plain lin_dims lin_starts lin_steps lin_vals 2%nat C14_sizes_ex (le_n 2).
Example C14_cubic_regular_ex := @C14_cubic_regular f64 F64Ops plain cub_dims cub_starts cub_steps cub_vals true cub_fit eq_refl eq_refl (le_S _ _ (le_n 1)).
Example C14_cubic_regular_recursive_ex := @C14_cubic_regular_recursive f64 F64Ops plain cub_dims cub_starts cub_steps cub_vals true 2%nat cub_fit (le_n 2).
Example C14_linear_rectilinear_ex := @C14_linear_rectilinear f64 F64Ops plain lin_grids lin_vals lin_fit.
Example C14_nearest_rectilinear_ex := @C14_nearest_rectilinear f64 F64Ops plain lin_grids lin_vals lin_fit.
Example C14_linear_rectilinear_recursive_ex := @C14_linear_rectilinear_recursive f64 F64Ops plain lin_grids lin_vals 2%nat lin_fit (conj (le_S _ _ (le_n 1)) (le_n 2)).
Example C14_cubic_rectilinear_ex := @C14_cubic_rectilinear f64 F64Ops plain cub_grids cub_vals true cub_gfit.
Example C14_cubic_rectilinear_recursive_ex := @C14_cubic_rectilinear_recursive f64 F64Ops plain cub_grids cub_vals true 2%nat cub_gfit (conj (le_S _ _ (le_n 1)) (le_n 2)).
(** * C15: builds with overflow checks *)
Example C15_linear_regular_recursive_ex := @C15_linear_regular_recursive_partial f64 F64Ops plain lin_dims lin_starts lin_steps lin_vals 2%nat lin_s eq_refl C11_linear_regular_new_ex.
Example C15_nearest_regular_ex := @C15_nearest_regular_partial f64 F64Ops plain lin_dims lin_starts lin_steps lin_vals lin_s eq_refl lin_new.
Example C15_cubic_regular_ex := @C15_cubic_regular_partial f64 F64Ops plain cub_dims cub_starts cub_steps cub_vals true (cub_s true) eq_refl (cub_new true).
Example C15_cubic_regular_recursive_ex := @C15_cubic_regular_recursive_partial f64 F64Ops plain cub_dims cub_starts cub_steps cub_vals true 2%nat (cub_s true) eq_refl C11_cubic_regular_new_ex.
Example C15_linear_rectilinear_ex := @C15_linear_rectilinear_partial f64 F64Ops plain lin_grids lin_vals lin_g eq_refl lin_gnew.
Example C15_linear_rectilinear_recursive_ex := @C15_linear_rectilinear_recursive_partial f64 F64Ops plain lin_grids lin_vals 2%nat lin_g eq_refl C11_linear_rectilinear_new_ex.
Example C15_nearest_rectilinear_ex := @C15_nearest_rectilinear_partial f64 F64Ops plain lin_grids lin_vals lin_g eq_refl lin_gnew.
Example C15_cubic_rectilinear_ex := @C15_cubic_rectilinear_partial f64 F64Ops plain cub_grids cub_vals true (cub_g true) eq_refl (cub_gnew true).
Example C15_cubic_rectilinear_recursive_ex := @C15_cubic_rectilinear_recursive_partial f64 F64Ops plain cub_grids cub_vals true 2%nat (cub_g true) eq_refl C11_cubic_rectilinear_new_ex.
Example C15_rectilinear_all_builds_ex := proj1 (@C15_rectilinear_all_builds_partial f64 F64Ops plain lin_grids lin_vals 2%nat true) lin_g lin_gnew.
(** * C16: no observation arrays; nine axes *)
Example C16_linear_regular_recursive_ex : exists e, mlrr_interpn F64Ops plain lin_dims lin_starts lin_steps lin_vals [] out1 = (Err e, out1).
Proof. apply C16_linear_regular_recursive; [apply C14_sizes_ex|]. intros (_ & _ & _ & H & _). discriminate H. Qed.
Example C16_nearest_regular_ex : exists e, nr_interpn F64Ops plain lin_dims lin_starts lin_steps lin_vals [] out1 = (Err e, out1).
Proof. apply C16_nearest_regular; [apply C14_sizes_ex|]. intros (_ & _ & _ & H & _). discriminate H. Qed.
Example C16_cubic_regular_recursive_ex : exists e, mcrr_interpn F64Ops plain cub_dims cub_starts cub_steps cub_vals true [] out1 = (Err e, out1).
Proof. apply C16_cubic_regular_recursive; [apply cub_fit|]. intros (_ & _ & _ & H & _). discriminate H. Qed.
Example C16_linear_rectilinear_ex : exists e, mlc_interpn F64Ops plain lin_grids lin_vals [] out1 = (Err e, out1).
Proof. apply C16_linear_rectilinear; [apply lin_fit|]. intros (_ & H & _). discriminate H. Qed.
Example C16_linear_rectilinear_recursive_ex : exists e, mlcr_interpn F64Ops plain lin_grids lin_vals [] out1 = (Err e, out1).
Proof. apply C16_linear_rectilinear_recursive; [apply lin_fit|]. intros (_ & H & _). discriminate H. Qed.
Example C16_nearest_rectilinear_ex : exists e, nc_interpn F64Ops plain lin_grids lin_vals [] out1 = (Err e, out1).
Proof. apply C16_nearest_rectilinear; [apply lin_fit|]. intros (_ & H & _). discriminate H. Qed.
Example C16_cubic_rectilinear_recursive_ex : exists e, mccr_interpn F64Ops plain cub_grids cub_vals true [] out1 = (Err e, out1).
Proof. apply C16_cubic_rectilinear_recursive; [apply cub_gfit|]. intros (_ & H & _). discriminate H. Qed.
Example C16_cubic_regular_ex : exists e, mcr_interpn F64Ops plain cub_dims cub_starts cub_steps cub_vals true good2 out1 = (Err e, out1).
Proof. apply C16_cubic_regular_partial; [apply cub_fit| |between|reflexivity|reflexivity|reflexivity].
  intros (_ & _ & _ & _ & H). apply Forall_inv in H. discriminate H. Qed.
Example C16_cubic_regular_big_ex : exists e, mcr_interpn F64Ops plain d9 [] [] [] true [] out1 = (Err e, out1).
Proof. apply C16_cubic_regular_big_partial; [apply d9_fit| |].
  - intros (_ & H & _). discriminate H.
  - intros (_ & H). apply Nat.leb_le in H. discriminate H. Qed.
Example C16_cubic_rectilinear_ex : exists e, mcc_interpn F64Ops plain cub_grids cub_vals true good2 out1 = (Err e, out1).
Proof. apply C16_cubic_rectilinear_partial; [apply cub_gfit| |between|reflexivity].
  intros (_ & _ & H). apply Forall_inv in H. discriminate H. Qed.
Example C16_cubic_rectilinear_big_ex : exists e, mcc_interpn F64Ops plain g9 [] true [] out1 = (Err e, out1).
Proof. apply C16_cubic_rectilinear_big_partial; [apply g9_fit| |].
  - intros (_ & H & _). discriminate H.
  - intros (_ & H). apply Nat.leb_le in H. discriminate H. Qed.
(** * C17: a batch of two points, one of them NaN *)
Example C17_linear_regular_ex := @C17_linear_regular f64 F64Ops plain lin_s obs2 out2 eq_refl ltac:(each).
Example C17_linear_regular_recursive_ex := @C17_linear_regular_recursive f64 F64Ops plain 2%nat lin_s obs2 out2 eq_refl ltac:(each).
Example C17_nearest_regular_ex := @C17_nearest_regular f64 F64Ops plain lin_s obs2 out2 eq_refl ltac:(each).
Example C17_cubic_regular_ex := @C17_cubic_regular f64 F64Ops plain (cub_s true) obs2 out2 eq_refl ltac:(each).
Example C17_cubic_regular_recursive_ex := @C17_cubic_regular_recursive f64 F64Ops plain 2%nat (cub_s true) obs2 out2 eq_refl ltac:(each).
Example C17_linear_rectilinear_ex := @C17_linear_rectilinear f64 F64Ops plain lin_g obs2 out2 eq_refl ltac:(each).
Example C17_linear_rectilinear_recursive_ex := @C17_linear_rectilinear_recursive f64 F64Ops plain 2%nat lin_g obs2 out2 eq_refl ltac:(each).
Example C17_nearest_rectilinear_ex := @C17_nearest_rectilinear f64 F64Ops plain lin_g obs2 out2 eq_refl ltac:(each).
Example C17_cubic_rectilinear_ex := @C17_cubic_rectilinear f64 F64Ops plain (cub_g true) obs2 out2 eq_refl ltac:(each).
Example C17_cubic_rectilinear_recursive_ex := @C17_cubic_rectilinear_recursive f64 F64Ops plain 2%nat (cub_g true) obs2 out2 eq_refl ltac:(each).
Example C17_one_dim_ex := @C17_one_dim f64 F64Ops on_grid [z64 0; B754_nan] out2 eq_refl.
Example C17_interpn_linear_regular_ex := @C17_interpn_linear_regular f64 F64Ops plain lin_dims lin_starts lin_steps lin_vals obs2 out2 lin_s ltac:(between) eq_refl eq_refl eq_refl ltac:(each) lin_new.
Example C17_interpn_linear_regular_7_8_ex := @C17_interpn_linear_regular_7_8 f64 F64Ops plain d7 st7 sp7 v7 (nan_obs 7) out1 s7 ltac:(between) eq_refl eq_refl eq_refl ltac:(each) new7.
Example C17_interpn_linear_rectilinear_ex := @C17_interpn_linear_rectilinear f64 F64Ops plain lin_grids lin_vals obs2 out2 lin_g ltac:(between) eq_refl ltac:(each) lin_gnew.
Example C17_interpn_linear_rectilinear_7_8_ex := @C17_interpn_linear_rectilinear_7_8 f64 F64Ops plain g7 v7 (nan_obs 7) out1 _ ltac:(between) eq_refl ltac:(each) gnew7.
Example C17_interpn_nearest_regular_ex := @C17_interpn_nearest_regular f64 F64Ops plain lin_dims lin_starts lin_steps lin_vals obs2 out2 lin_s ltac:(between) eq_refl eq_refl eq_refl ltac:(each) lin_new.
Example C17_interpn_nearest_rectilinear_ex := @C17_interpn_nearest_rectilinear f64 F64Ops plain lin_grids lin_vals obs2 out2 lin_g ltac:(between) eq_refl ltac:(each) lin_gnew.
Example C17_interpn_cubic_regular_ex := @C17_interpn_cubic_regular f64 F64Ops plain cub_dims cub_starts cub_steps cub_vals true obs2 out2 (cub_s true) ltac:(between) eq_refl eq_refl eq_refl ltac:(each) (cub_new true).
Example C17_interpn_cubic_regular_5_8_ex := @C17_interpn_cubic_regular_5_8 f64 F64Ops plain d5 st5 sp5 v5 true (nan_obs 5) out1 s5 ltac:(between) eq_refl eq_refl eq_refl ltac:(each) new5.
Example C17_interpn_cubic_rectilinear_ex := @C17_interpn_cubic_rectilinear f64 F64Ops plain cub_grids cub_vals true obs2 out2 (cub_g true) ltac:(between) eq_refl ltac:(each) (cub_gnew true).
Example C17_interpn_cubic_rectilinear_5_8_ex := @C17_interpn_cubic_rectilinear_5_8 f64 F64Ops plain g5 v5 true (nan_obs 5) out1 _ ltac:(between) eq_refl ltac:(each) gnew5.
(** * C18: a batch whose first point fails on regular grids; batches with NaN on rectilinear grids;
    missing observation arrays *)
Example C18_linear_regular_ex : mlr_interp F64Ops plain lin_s (nan_obs 2) out1 = (Err "Unrepresentable coordinate value", out1).
Proof. apply (@C18_linear_regular f64 F64Ops plain lin_s (nan_obs 2) out1 0%nat []); [reflexivity|each|fails]. Qed.
Example C18_linear_regular_recursive_ex : mlrr_interp F64Ops plain 2%nat lin_s (nan_obs 2) out1 = (Err "Unrepresentable coordinate value", out1).
Proof. apply (@C18_linear_regular_recursive f64 F64Ops plain 2%nat lin_s (nan_obs 2) out1 0%nat []); [reflexivity|each|fails]. Qed.
Example C18_nearest_regular_ex : nr_interp F64Ops plain lin_s (nan_obs 2) out1 = (Err "Unrepresentable coordinate value", out1).
Proof. apply (@C18_nearest_regular f64 F64Ops plain lin_s (nan_obs 2) out1 0%nat []); [reflexivity|each|fails]. Qed.
Example C18_cubic_regular_ex : mcr_interp F64Ops plain (cub_s true) (nan_obs 2) out1 = (Err "Unrepresentable coordinate value", out1).
Proof. apply (@C18_cubic_regular f64 F64Ops plain (cub_s true) (nan_obs 2) out1 0%nat []); [reflexivity|each|fails]. Qed.
Example C18_cubic_regular_recursive_ex : mcrr_interp F64Ops plain 2%nat (cub_s true) (nan_obs 2) out1 = (Err "Unrepresentable coordinate value", out1).
Proof. apply (@C18_cubic_regular_recursive f64 F64Ops plain 2%nat (cub_s true) (nan_obs 2) out1 0%nat []); [reflexivity|each|fails]. Qed.
Example C18_linear_rectilinear_ex := @C18_linear_rectilinear f64 F64Ops plain lin_grids lin_vals lin_g obs2 out2 (lin_rinput plain) lin_gnew eq_refl ltac:(each).
Example C18_linear_rectilinear_recursive_ex := @C18_linear_rectilinear_recursive f64 F64Ops plain lin_grids lin_vals 2%nat lin_g obs2 out2 (lin_rinput plain) C11_linear_rectilinear_new_ex eq_refl ltac:(each).
Example C18_nearest_rectilinear_ex := @C18_nearest_rectilinear f64 F64Ops plain lin_grids lin_vals lin_g obs2 out2 (lin_rinput plain) lin_gnew eq_refl ltac:(each).
Example C18_cubic_rectilinear_ex := @C18_cubic_rectilinear f64 F64Ops plain cub_grids cub_vals true (cub_g true) obs2 out2 (cub_rinput plain) (cub_gnew true) eq_refl ltac:(each).
Example C18_cubic_rectilinear_recursive_ex := @C18_cubic_rectilinear_recursive f64 F64Ops plain cub_grids cub_vals true 2%nat (cub_g true) obs2 out2 (cub_rinput plain) C11_cubic_rectilinear_new_ex eq_refl ltac:(each).
Example C18_linear_regular_mismatch_ex := @C18_linear_regular_mismatch f64 F64Ops plain lin_s [] out2 ltac:(left; discriminate).
Example C18_linear_regular_recursive_mismatch_ex := @C18_linear_regular_recursive_mismatch f64 F64Ops plain 2%nat lin_s [] out2 ltac:(left; discriminate).
Example C18_nearest_regular_mismatch_ex := @C18_nearest_regular_mismatch f64 F64Ops plain lin_s [] out2 ltac:(left; discriminate).
Example C18_cubic_regular_mismatch_ex := @C18_cubic_regular_mismatch f64 F64Ops plain (cub_s true) [] out2 ltac:(left; discriminate).
Example C18_cubic_regular_recursive_mismatch_ex := @C18_cubic_regular_recursive_mismatch f64 F64Ops plain 2%nat (cub_s true) [] out2 ltac:(left; discriminate).
Example C18_linear_rectilinear_mismatch_ex := @C18_linear_rectilinear_mismatch f64 F64Ops plain lin_g [] out2 ltac:(left; discriminate).
Example C18_linear_rectilinear_recursive_mismatch_ex := @C18_linear_rectilinear_recursive_mismatch f64 F64Ops plain 2%nat lin_g [] out2 ltac:(left; discriminate).
Example C18_nearest_rectilinear_mismatch_ex := @C18_nearest_rectilinear_mismatch f64 F64Ops plain lin_g [] out2 ltac:(left; discriminate).
Example C18_cubic_rectilinear_mismatch_ex := @C18_cubic_rectilinear_mismatch f64 F64Ops plain (cub_g true) [] out2 ltac:(left; discriminate).
Example C18_cubic_rectilinear_recursive_mismatch_ex := @C18_cubic_rectilinear_recursive_mismatch f64 F64Ops plain 2%nat (cub_g true) [] out2 ltac:(left; discriminate).
Example C18_one_dim_ex : eval1 on_grid [B754_nan] out1 = (Err "Unrepresentable number", out1).
Proof. apply (@C18_one_dim f64 F64Ops on_grid [B754_nan] out1 0%nat []); [reflexivity|fails]. Qed.
Example C18_one_dim_mismatch_ex := @C18_one_dim_mismatch f64 on_grid [] out1 ltac:(discriminate).
Example C18_interpn_linear_regular_ex : mlr_interpn F64Ops plain lin_dims lin_starts lin_steps lin_vals (nan_obs 2) out1 = (Err "Unrepresentable coordinate value", out1).
Proof. apply (@C18_interpn_linear_regular f64 F64Ops plain lin_dims lin_starts lin_steps lin_vals (nan_obs 2) out1 lin_s 0%nat []);
  [between|reflexivity|reflexivity|reflexivity|each|exact lin_new|fails]. Qed.
Example C18_interpn_linear_regular_7_8_ex : mlr_interpn F64Ops plain d7 st7 sp7 v7 (nan_obs 7) out1 = (Err "Unrepresentable coordinate value", out1).
Proof. apply (@C18_interpn_linear_regular_7_8 f64 F64Ops plain d7 st7 sp7 v7 (nan_obs 7) out1 s7 0%nat []);
  [between|reflexivity|reflexivity|reflexivity|each|exact new7|fails]. Qed.
Example C18_interpn_nearest_regular_ex : nr_interpn F64Ops plain lin_dims lin_starts lin_steps lin_vals (nan_obs 2) out1 = (Err "Unrepresentable coordinate value", out1).
Proof. apply (@C18_interpn_nearest_regular f64 F64Ops plain lin_dims lin_starts lin_steps lin_vals (nan_obs 2) out1 lin_s 0%nat []);
  [between|reflexivity|reflexivity|reflexivity|each|exact lin_new|fails]. Qed.
Example C18_interpn_cubic_regular_ex : mcr_interpn F64Ops plain cub_dims cub_starts cub_steps cub_vals true (nan_obs 2) out1 = (Err "Unrepresentable coordinate value", out1).
Proof. apply (@C18_interpn_cubic_regular f64 F64Ops plain cub_dims cub_starts cub_steps cub_vals true (nan_obs 2) out1 (cub_s true) 0%nat []);
  [between|reflexivity|reflexivity|reflexivity|each|exact (cub_new true)|fails]. Qed.
Example C18_interpn_cubic_regular_5_8_ex : mcr_interpn F64Ops plain d5 st5 sp5 v5 true (nan_obs 5) out1 = (Err "Unrepresentable coordinate value", out1).
Proof. apply (@C18_interpn_cubic_regular_5_8 f64 F64Ops plain d5 st5 sp5 v5 true (nan_obs 5) out1 s5 0%nat []);
  [between|reflexivity|reflexivity|reflexivity|each|exact new5|fails]. Qed.
Example C18_interpn_linear_rectilinear_ex := @C18_interpn_linear_rectilinear f64 F64Ops plain lin_grids lin_vals _ obs2 out2 ltac:(between) (lin_rinput plain) lin_gnew eq_refl ltac:(each).
Example C18_interpn_linear_rectilinear_7_8_ex := @C18_interpn_linear_rectilinear_7_8 f64 F64Ops plain g7 v7 _ (nan_obs 7) out1 ltac:(between) (g7_input plain) gnew7 eq_refl ltac:(each).
Example C18_interpn_nearest_rectilinear_ex := @C18_interpn_nearest_rectilinear f64 F64Ops plain lin_grids lin_vals _ obs2 out2 ltac:(between) (lin_rinput plain) lin_gnew eq_refl ltac:(each).
Example C18_interpn_cubic_rectilinear_ex := @C18_interpn_cubic_rectilinear f64 F64Ops plain cub_grids cub_vals true _ obs2 out2 ltac:(between) (cub_rinput plain) (cub_gnew true) eq_refl ltac:(each).
Example C18_interpn_cubic_rectilinear_5_8_ex := @C18_interpn_cubic_rectilinear_5_8 f64 F64Ops plain g5 v5 true _ (nan_obs 5) out1 ltac:(between) (g5_input plain) gnew5 eq_refl ltac:(each).
(** * C19: the point of C19_ex, and points on the other grids *)
Example C19_linear_regular_ex := @C19_linear_regular f64 F64Ops plain lin_dims lin_starts lin_steps lin_pt usize_converts_f64 eq_refl.
Example C19_linear_regular_recursive_ex := @C19_linear_regular_recursive f64 F64Ops plain 2%nat lin_dims lin_starts lin_steps lin_pt usize_converts_f64 eq_refl.
Example C19_cubic_regular_ex := @C19_cubic_regular f64 F64Ops plain cub_dims cub_starts cub_steps true cub_pt usize_converts_f64 eq_refl.
Example C19_cubic_regular_recursive_ex := @C19_cubic_regular_recursive f64 F64Ops plain 2%nat cub_dims cub_starts cub_steps true cub_pt usize_converts_f64 eq_refl.
Example C19_linear_rectilinear_ex := @C19_linear_rectilinear f64 F64Ops plain lin_grids lin_pt eq_refl.
Example C19_linear_rectilinear_recursive_ex := @C19_linear_rectilinear_recursive f64 F64Ops plain 2%nat lin_grids lin_pt eq_refl.
Example C19_cubic_rectilinear_ex := @C19_cubic_rectilinear f64 F64Ops plain cub_grids true cub_pt eq_refl.
Example C19_cubic_rectilinear_recursive_ex := @C19_cubic_rectilinear_recursive f64 F64Ops plain 2%nat cub_grids true cub_pt eq_refl.
Example C19_nearest_regular_ex := @C19_nearest_regular f64 F64Ops plain lin_dims lin_starts lin_steps lin_pt usize_converts_f64 eq_refl.
Example C19_nearest_rectilinear_ex := @C19_nearest_rectilinear f64 F64Ops plain lin_grids lin_pt eq_refl.
(** The inner hypotheses: two value arrays for the grid are accepted. *)
Example C19_values_ex : exists os, box_in_grid 2 lin_dims os /\
  ((forall idx, in_box 2 os idx -> entry (fzero F64Ops) lin_dims lin_vals idx = entry (fzero F64Ops) lin_dims lin_vals' idx) ->
   mlr_interp_one F64Ops plain lin_s lin_pt = mlr_interp_one F64Ops plain (mkRegular lin_dims lin_starts lin_steps lin_vals') lin_pt).
Proof.
  destruct C19_linear_regular_ex as (os & H). exists os.
  assert (I : reg_input plain lin_dims lin_starts lin_steps lin_vals') by reg_ok.
  exact (H lin_vals lin_vals' _ _ (lin_input _) I lin_new lin_new').
Qed.
(** * C37 *)
Example C37_linear_regular_ex := @C37_linear_regular f64 F64Ops plain lin_dims lin_starts lin_steps lin_vals [z64 7; z64 0] [[z64 2; z64 1]] out2 eq_refl.
Example C37_linear_regular_recursive_ex := @C37_linear_regular_recursive f64 F64Ops plain lin_dims lin_starts lin_steps lin_vals [z64 7; z64 0] [[z64 2; z64 1]] out2 eq_refl.
Example C37_nearest_regular_ex := @C37_nearest_regular f64 F64Ops plain lin_dims lin_starts lin_steps lin_vals [z64 7; z64 0] [[z64 2; z64 1]] out2 eq_refl.
Example C37_cubic_regular_ex := @C37_cubic_regular f64 F64Ops plain cub_dims cub_starts cub_steps cub_vals true [z64 7; z64 0] [[z64 2; z64 1]] out2 eq_refl.
Example C37_cubic_regular_recursive_ex := @C37_cubic_regular_recursive f64 F64Ops plain cub_dims cub_starts cub_steps cub_vals true [z64 7; z64 0] [[z64 2; z64 1]] out2 eq_refl.
Example C37_linear_rectilinear_ex := @C37_linear_rectilinear f64 F64Ops plain lin_grids lin_vals [z64 7; z64 0] [[z64 2; z64 1]] out2 eq_refl.
Example C37_linear_rectilinear_recursive_ex := @C37_linear_rectilinear_recursive f64 F64Ops plain lin_grids lin_vals [z64 7; z64 0] [[z64 2; z64 1]] out2 eq_refl.
Example C37_nearest_rectilinear_ex := @C37_nearest_rectilinear f64 F64Ops plain lin_grids lin_vals [z64 7; z64 0] [[z64 2; z64 1]] out2 eq_refl.
Example C37_cubic_rectilinear_ex := @C37_cubic_rectilinear f64 F64Ops plain cub_grids cub_vals true [z64 7; z64 0] [[z64 2; z64 1]] out2 eq_refl.
Example C37_cubic_rectilinear_recursive_ex := @C37_cubic_rectilinear_recursive f64 F64Ops plain cub_grids cub_vals true [z64 7; z64 0] [[z64 2; z64 1]] out2 eq_refl.
Example C37_one_dim_ex := @C37_one_dim f64 F64Ops on_grid [z64 0; B754_nan] out2 eq_refl.
