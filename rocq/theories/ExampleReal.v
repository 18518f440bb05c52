(** Concrete interpolators over the real numbers, used to show that the hypotheses of the
    exact-arithmetic theorems are satisfiable. *)
From Coq Require Import Reals Lra PeanoNat Bool Sorted.
From Verif Require Import Base Ops RInst ModelLinear ModelNearest ModelCubic Spec SpecReal Interpolators RChar.
Open Scope R_scope.

Definition rplain : cfg := mkCfg false true.

(** A 3 x 2 grid, described in both ways. *)
Definition rl_dims : list Z := [3%Z; 2%Z].
Definition rl_starts : list R := [0; 1].
Definition rl_steps : list R := [1; 2].
Definition rl_vals : list R := [1; 2; 4; 8; 16; 32].
Definition rl_grids : list (list R) := [[0; 1; 2]; [1; 3]].
(** An unevenly spaced 3 x 2 grid. *)
Definition ru_grids : list (list R) := [[0; 1; 4]; [-1; 3]].

(** A 4 x 5 grid, described in both ways, and an unevenly spaced one. *)
Definition rc_dims : list Z := [4%Z; 5%Z].
Definition rc_starts : list R := [0; -1].
Definition rc_steps : list R := [1; 2].
Definition rc_vals : list R := map (fun n => IZR (Z.of_nat (n * n) - 7)) (seq 0 20).
Definition rc_grids : list (list R) := [[0; 1; 2; 3]; [-1; 1; 3; 5; 7]].
Definition rcu_grids : list (list R) := [[0; 1; 3; 4]; [-1; 0; 1; 5; 7]].

Ltac rltb := repeat (rewrite (proj2 (Rltb_true _ _)) by lra).
Ltac new_ok := lazy -[Rltb IZR Rplus Rmult Rinv Ropp rl_vals rc_vals]; rltb; reflexivity.

Ltac rreg_ok := split; [apply Nat.leb_le; reflexivity|split; [reflexivity|split; [reflexivity|
  split; [vm_compute; discriminate|right; vm_compute; reflexivity]]]].
Ltac rrect_ok := split; [apply Nat.leb_le; reflexivity|split; [vm_compute; discriminate|right; vm_compute; reflexivity]].
Ltac sorted_ok := repeat (constructor; try lra).

Lemma rl_new : mlr_new ROps rplain rl_dims rl_starts rl_steps rl_vals
  = Ok (mkRegular rl_dims rl_starts rl_steps rl_vals).
Proof. new_ok. Qed.
Lemma rlr_new m : (2 <= m)%nat -> mlrr_new ROps rplain m rl_dims rl_starts rl_steps rl_vals
  = Ok (mkRegular rl_dims rl_starts rl_steps rl_vals).
Proof. intros H. destruct m as [|[|m]]; try lia. new_ok. Qed.
Lemma rlc_new : mlc_new ROps rplain rl_grids rl_vals = Ok (mkRect rl_grids [3%Z; 2%Z] rl_vals).
Proof. new_ok. Qed.
Lemma rlu_new : mlc_new ROps rplain ru_grids rl_vals = Ok (mkRect ru_grids [3%Z; 2%Z] rl_vals).
Proof. new_ok. Qed.
Lemma rc_new lin : mcr_new ROps rplain rc_dims rc_starts rc_steps rc_vals lin
  = Ok (mkCR (mkRegular rc_dims rc_starts rc_steps rc_vals) lin).
Proof. new_ok. Qed.
Lemma rcc_new lin : mcc_new ROps rplain rc_grids rc_vals lin
  = Ok (mkCC (mkRect rc_grids [4%Z; 5%Z] rc_vals) lin).
Proof. new_ok. Qed.
Lemma rcu_new lin : mcc_new ROps rplain rcu_grids rc_vals lin
  = Ok (mkCC (mkRect rcu_grids [4%Z; 5%Z] rc_vals) lin).
Proof. new_ok. Qed.

(** The interpolators. *)
Definition rl_eval := mlr_interp_one ROps rplain (mkRegular rl_dims rl_starts rl_steps rl_vals).
Definition rlr_eval := mlrr_interp_one ROps rplain 2 (mkRegular rl_dims rl_starts rl_steps rl_vals).
Definition rlc_eval := mlc_interp_one ROps rplain (mkRect rl_grids [3%Z; 2%Z] rl_vals).
Definition rlu_eval := mlc_interp_one ROps rplain (mkRect ru_grids [3%Z; 2%Z] rl_vals).
Definition rc_eval lin := mcr_interp_one ROps rplain (mkCR (mkRegular rc_dims rc_starts rc_steps rc_vals) lin).
Definition rcc_eval lin := mcc_interp_one ROps rplain (mkCC (mkRect rc_grids [4%Z; 5%Z] rc_vals) lin).
Definition rcu_eval lin := mcc_interp_one ROps rplain (mkCC (mkRect rcu_grids [4%Z; 5%Z] rc_vals) lin).
Definition rn_eval := nr_interp_one ROps rplain (mkRegular rl_dims rl_starts rl_steps rl_vals).
Definition rnc_eval := nc_interp_one ROps rplain (mkRect rl_grids [3%Z; 2%Z] rl_vals).
Definition rnu_eval := nc_interp_one ROps rplain (mkRect ru_grids [3%Z; 2%Z] rl_vals).

Definition rl_axes := reg_axes rl_dims rl_starts rl_steps.
Definition rc_axes := reg_axes rc_dims rc_starts rc_steps.

Lemma rl_ok : multilinear rplain rl_vals rl_axes (cell_fits isize_min rl_starts rl_steps) rl_eval.
Proof. apply multilinear_regular; [rreg_ok|apply rl_new]. Qed.
Lemma rlr_ok : multilinear rplain rl_vals rl_axes (cell_fits isize_min rl_starts rl_steps) rlr_eval.
Proof. apply multilinear_regular_recursive; [rreg_ok|apply rlr_new; lia]. Qed.
Lemma rlc_ok : multilinear rplain rl_vals (rect_axes rl_grids) everywhere rlc_eval.
Proof. apply multilinear_rectilinear; [rrect_ok|sorted_ok|apply rlc_new]. Qed.
Lemma rlu_ok : multilinear rplain rl_vals (rect_axes ru_grids) everywhere rlu_eval.
Proof. apply multilinear_rectilinear; [rrect_ok|sorted_ok|apply rlu_new]. Qed.
Lemma rc_ok lin : multicubic rplain lin rc_vals rc_axes (cell_fits (isize_min + 1) rc_starts rc_steps) (rc_eval lin).
Proof. apply multicubic_regular; [rreg_ok|apply rc_new]. Qed.
Lemma rcc_ok lin : multicubic rplain lin rc_vals (rect_axes rc_grids) everywhere (rcc_eval lin).
Proof. apply multicubic_rectilinear; [rrect_ok|sorted_ok|apply rcc_new]. Qed.
Lemma rcu_ok lin : multicubic rplain lin rc_vals (rect_axes rcu_grids) everywhere (rcu_eval lin).
Proof. apply multicubic_rectilinear; [rrect_ok|sorted_ok|apply rcu_new]. Qed.
Lemma rn_ok : nearest_nd rplain rl_vals rl_axes (cell_fits isize_min rl_starts rl_steps) rn_eval.
Proof. apply nearest_regular; [rreg_ok|apply rl_new]. Qed.
Lemma rnc_ok : nearest_nd rplain rl_vals (rect_axes rl_grids) everywhere rnc_eval.
Proof. apply nearest_rectilinear; [rrect_ok|sorted_ok|apply rlc_new]. Qed.
Lemma rnu_ok : nearest_nd rplain rl_vals (rect_axes ru_grids) everywhere rnu_eval.
Proof. apply nearest_rectilinear; [rrect_ok|sorted_ok|apply rlu_new]. Qed.
