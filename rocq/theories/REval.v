(** The evaluators in exact arithmetic. *)
From Coq Require Import Reals Lra PeanoNat Bool Sorted ZifyBool ZifyNat.
From Verif Require Import Base Ops ModelCore ModelLinear ModelNearest ModelCubic.
From Verif Require Import Spec CoreLemmas TensorLemmas MethodLemmas SearchLemmas MethodChar GenLemmas.
From Verif Require Import GenProofs3.
From Verif Require Import RInst SpecReal RTensor R1D RChar Interpolators.
Open Scope R_scope.

Lemma good_lin axes x : length x = length axes -> Forall (good_axis 2) axes ->
  lfs (map npts axes) (ops1 lin1 axes x).
Proof.
  intros L H. apply ops1_lfs; auto. eapply Forall_impl; [|exact H].
  intros a (Ha & Hn) t. apply lin1_lf; auto.
Qed.

Lemma good_cub lin axes x : length x = length axes -> Forall (good_axis 4) axes ->
  lfs (map npts axes) (ops1 (cub1 lin) axes x).
Proof.
  intros L H. apply ops1_lfs; auto. eapply Forall_impl; [|exact H].
  intros a (Ha & Hn) t. apply cub1_lf; auto.
Qed.

Definition steps_pos (steps : list R) := Forall (fun h => 0 < h) steps.

Lemma fits_reg_cells lo s x : (isize_min <= lo)%Z -> length x = length (r_dims s) ->
  cell_fits lo (r_starts s) (r_steps s) x ->
  exists os, reg_cells ROps s x = Ok os /\ length os = length (r_dims s) /\
   forall k, (k < length os)%nat -> reg_cell ROps (nth k (r_starts s) 0) (nth k (r_steps s) 0) (nth k (r_dims s) 0%Z) (nth k x 0) = Ok (nth k os 0%Z).
Proof.
  intros Hlo Lx Hf.
  unfold reg_cells.
  rewrite (mapM_ok_map _ (fun k => match reg_cell ROps (nth k (r_starts s) 0) (nth k (r_steps s) 0) (nth k (r_dims s) 0%Z) (nth k x 0) with Ok v => v | _ => 0%Z end)).
  - eexists. split; [reflexivity|]. rewrite map_length, seq_length. split; auto.
    intros k Hk. rewrite (nth_map_seq (fun k => match reg_cell ROps (nth k (r_starts s) 0) (nth k (r_steps s) 0) (nth k (r_dims s) 0%Z) (nth k x 0) with Ok v => v | _ => 0%Z end)) by auto.
    destruct (R_to_isize_fits Hlo (Hf k ltac:(lia))) as (E & _).
    unfold reg_cell. simpl. rewrite E. reflexivity.
  - intros k Hk. apply in_seq in Hk. unfold reg_cell. simpl.
    destruct (R_to_isize_fits Hlo (Hf k ltac:(lia))) as (E & _). rewrite E. reflexivity.
Qed.

Lemma fits_creg_cells c s x : length x = length (r_dims s) ->
  cell_fits (isize_min + 1) (r_starts s) (r_steps s) x ->
  exists os, creg_cells ROps c s x = Ok os /\ length os = length (r_dims s) /\
   forall k, (k < length os)%nat -> creg_cell ROps c (nth k (r_starts s) 0) (nth k (r_steps s) 0) (nth k (r_dims s) 0%Z) (nth k x 0) = Ok (nth k os az).
Proof.
  intros Lx Hf.
  assert (G : forall k, (k < length (r_dims s))%nat -> exists p, creg_cell ROps c (nth k (r_starts s) 0) (nth k (r_steps s) 0) (nth k (r_dims s) 0%Z) (nth k x 0) = Ok p).
  { intros k Hk. assert (Hk' : (k < length x)%nat) by lia.
    specialize (Hf k Hk'). unfold creg_cell. simpl fdiv. simpl fsub. simpl ffloor. simpl to_isize.
    set (q := (nth k x 0 - nth k (r_starts s) 0) / nth k (r_steps s) 0) in *.
    destruct (R_to_isize_fits (lo := (isize_min + 1)) ltac:(lia) Hf) as (E & L).
    assert (U : (Raux.Zfloor q <= isize_max)%Z).
    { assert (F := Raux.Zfloor_lb q).
      assert (Q : IZR (Raux.Zfloor q) < IZR (isize_max + 1)) by lra. apply lt_IZR in Q. lia. }
    rewrite E. cbn [ok_or bind].
    rewrite isize_sub_ok by lia. cbn [bind]. eauto. }
  unfold creg_cells.
  rewrite (mapM_ok_map _ (fun k => match creg_cell ROps c (nth k (r_starts s) 0) (nth k (r_steps s) 0) (nth k (r_dims s) 0%Z) (nth k x 0) with Ok v => v | _ => az end)).
  - eexists. split; [reflexivity|]. rewrite map_length, seq_length. split; auto.
    intros k Hk. rewrite (nth_map_seq (fun k => match creg_cell ROps c (nth k (r_starts s) 0) (nth k (r_steps s) 0) (nth k (r_dims s) 0%Z) (nth k x 0) with Ok v => v | _ => az end)) by auto.
    destruct (G k Hk) as (p & E). rewrite E. reflexivity.
  - intros k Hk. apply in_seq in Hk. destruct (G k ltac:(lia)) as (p & E). simpl in E |- *. rewrite E. reflexivity.
Qed.

Section Reg.
Variables (c : cfg) (s : regular R) (x : list R).
Hypothesis Lx : length x = length (r_dims s).
Hypothesis Hs : steps_pos (r_steps s).
Notation axes := (reg_axes (r_dims s) (r_starts s) (r_steps s)).
Notation V := (entry 0 (r_dims s) (r_vals s)).

Lemma lin_tens_reg fma os : reg_wf 2 s -> reg_cells ROps s x = Ok os ->
  length os = length (r_dims s) ->
  (forall k, (k < length os)%nat -> reg_cell ROps (nth k (r_starts s) 0) (nth k (r_steps s) 0) (nth k (r_dims s) 0%Z) (nth k x 0) = Ok (nth k os 0%Z)) ->
  tens 2 V (fun k => lin_nd ROps c (reg_dtp ROps fma (nth k (r_starts s) 0) (nth k (r_steps s) 0) (nth k x 0) (nth k os 0%Z)))
    os (length (r_dims s)) [] = tenL (ops1 lin1 axes x) V.
Proof.
  intros (W0 & W1 & W2 & W3 & W4) E Lo Hc.
  assert (La : length axes = length (r_dims s)) by (apply reg_axes_length; auto).
  assert (Good : Forall (good_axis 2) axes) by (apply reg_axes_good; auto).
  assert (HL := good_lin x (eq_trans Lx (eq_sym La)) Good).
  rewrite <- (tens_tenL 2 V (fun k => lin_nd ROps c (reg_dtp ROps fma (nth k (r_starts s) 0) (nth k (r_steps s) 0) (nth k x 0) (nth k os 0%Z))) os HL).
  { rewrite ops1_length by lia. rewrite La. reflexivity. }
  rewrite ops1_length by lia. intros k f Hk. rewrite ops1_nth by lia.
  rewrite reg_axes_nth by lia. cbn [seq map]. rewrite Z.add_0_r.
  change (Z.of_nat 1) with 1%Z. apply lin_reg_axis; [| |apply Hc; lia].
  - apply (Forall_nth_lt 0 Hs). lia.
  - apply (Forall_nth_lt 0%Z W3). lia.
Qed.

Lemma cub_tens_reg fma lin os : reg_wf 4 s -> cell_fits (isize_min + 1) (r_starts s) (r_steps s) x ->
  creg_cells ROps c s x = Ok os -> length os = length (r_dims s) ->
  (forall k, (k < length os)%nat -> creg_cell ROps c (nth k (r_starts s) 0) (nth k (r_steps s) 0) (nth k (r_dims s) 0%Z) (nth k x 0) = Ok (nth k os az)) ->
  tens 4 V (mcr_nd ROps c fma lin s x os) (map fst os) (length (r_dims s)) []
  = tenL (ops1 (cub1 lin) axes x) V.
Proof.
  intros (W0 & W1 & W2 & W3 & W4) Hf E Lo Hc.
  assert (La : length axes = length (r_dims s)) by (apply reg_axes_length; auto).
  assert (Good : Forall (good_axis 4) axes) by (apply reg_axes_good; auto).
  assert (HL := good_cub lin x (eq_trans Lx (eq_sym La)) Good).
  rewrite <- (tens_tenL 4 V (mcr_nd ROps c fma lin s x os) (map fst os) HL).
  { rewrite ops1_length by lia. rewrite La. reflexivity. }
  rewrite ops1_length by lia. intros k f Hk. rewrite ops1_nth by lia.
  rewrite reg_axes_nth by lia. cbn [seq map]. rewrite Z.add_0_r.
  change (Z.of_nat 1) with 1%Z. change (Z.of_nat 2) with 2%Z. change (Z.of_nat 3) with 3%Z.
  rewrite nth_map_fst. unfold mcr_nd. specialize (Hc k ltac:(lia)). specialize (Hf k ltac:(lia)).
  destruct (nth k os az) as [i sat]. cbn [fst snd]. simpl fzero.
  apply cub_reg_axis; auto; [| |apply Hf].
  - apply (Forall_nth_lt 0 Hs). lia.
  - apply (Forall_nth_lt 0%Z W3). lia.
Qed.
End Reg.

Section Rect.
Variables (c : cfg) (s : rectilinear R) (x : list R).
Hypothesis Lx : length x = length (g_grids s).
Hypothesis Hg : grids_ok (g_grids s).
Notation axes := (rect_axes (g_grids s)).
Notation V := (entry 0 (g_dims s) (g_vals s)).

Lemma lin_tens_rect : rect_wf 2 s -> mlc_value ROps c s x = tenL (ops1 lin1 axes x) V.
Proof.
  intros W. assert (W' := W). destruct W as (W0 & W1 & W2 & W3).
  assert (La : length axes = length (g_grids s)) by (apply map_length).
  assert (Good : Forall (good_axis 2) axes) by (apply rect_axes_good; auto).
  assert (HL := good_lin x (eq_trans Lx (eq_sym La)) Good).
  unfold mlc_value. simpl fzero.
  rewrite <- (tens_tenL 2 V (fun k => lin_nd ROps c (rect_dtp ROps (nth k (g_grids s) []) (nth k x 0) (rect_cell ROps (nth k (g_grids s) []) (nth k x 0)))) (rect_cells ROps s x) HL).
  { rewrite ops1_length by lia. rewrite La. reflexivity. }
  rewrite ops1_length by lia. intros k f Hk. rewrite ops1_nth by lia.
  rewrite rect_axes_nth by lia. cbn [seq map]. rewrite Z.add_0_r.
  change (Z.of_nat 1) with 1%Z. rewrite rect_cells_nth by lia. simpl fzero.
  apply lin_rect_axis.
  - apply (Forall_nth_lt [] Hg). lia.
  - apply (Forall_nth_lt [] W2). lia.
Qed.

Lemma cub_tens_rect fma lin : rect_wf 4 s ->
  mcc_value ROps c fma lin s x = tenL (ops1 (cub1 lin) axes x) V.
Proof.
  intros W. assert (W' := W). destruct W as (W0 & W1 & W2 & W3).
  assert (La : length axes = length (g_grids s)) by (apply map_length).
  assert (Good : Forall (good_axis 4) axes) by (apply rect_axes_good; auto).
  assert (HL := good_cub lin x (eq_trans Lx (eq_sym La)) Good).
  unfold mcc_value. simpl fzero.
  rewrite <- (tens_tenL 4 V (mcc_nd ROps c fma lin s x) (map fst (crect_cells ROps s x)) HL).
  { rewrite ops1_length by lia. rewrite La. reflexivity. }
  rewrite ops1_length by lia. intros k f Hk. rewrite ops1_nth by lia.
  rewrite rect_axes_nth by lia. cbn [seq map]. rewrite Z.add_0_r.
  change (Z.of_nat 1) with 1%Z. change (Z.of_nat 2) with 2%Z. change (Z.of_nat 3) with 3%Z.
  rewrite nth_map_fst, crect_cells_nth by lia. unfold mcc_nd. simpl fzero.
  apply cub_rect_axis.
  - apply (Forall_nth_lt [] Hg). lia.
  - apply (Forall_nth_lt [] W2). lia.
Qed.
End Rect.

(** Constructors accept positive steps only. *)
Lemma forallb_steps steps : negb (forallb (fun x => flt ROps (fzero ROps) x) steps) = false -> steps_pos steps.
Proof.
  intros H. apply negb_false_iff in H. rewrite forallb_forall in H. apply Forall_forall.
  intros h Hh. apply Rltb_true. apply H; auto.
Qed.

Lemma steps_mlr c dims starts steps vals s : mlr_new ROps c dims starts steps vals = Ok s -> steps_pos steps.
Proof. intros H. unfold mlr_new in H. inv_new H. apply forallb_steps. assumption. Qed.
Lemma steps_mlrr c m dims starts steps vals s : mlrr_new ROps c m dims starts steps vals = Ok s -> steps_pos steps.
Proof. intros H. unfold mlrr_new in H. inv_new H. apply forallb_steps. assumption. Qed.
Lemma steps_mcr c dims starts steps vals l s : mcr_new ROps c dims starts steps vals l = Ok s -> steps_pos steps.
Proof. intros H. unfold mcr_new in H. inv_new H. apply forallb_steps. assumption. Qed.
Lemma steps_mcrr c m dims starts steps vals l s : mcrr_new ROps c m dims starts steps vals l = Ok s -> steps_pos steps.
Proof. intros H. unfold mcrr_new in H. inv_new H. apply forallb_steps. assumption. Qed.

(** ** The interpolators *)
Theorem multilinear_value c vals axes dom eval : multilinear c vals axes dom eval ->
  Forall (good_axis 2) axes /\ zlen vals = zprod (map npts axes) /\
  forall x, length x = length axes -> dom x ->
    eval x = Ok (tenL (ops1 lin1 axes x) (entry 0 (map npts axes) vals)).
Proof.
  intros [dims starts steps s Hi Hn|m dims starts steps s Hi Hn|grids s Hi Hg Hn|m grids s Hi Hg Hn];
    assert (Hi' := Hi); destruct Hi' as (I1 & I2 & I3).
  - assert (Hs := steps_mlr _ _ _ _ _ Hn). destruct (mlr_new_inv ROps Hi Hn) as (W & ->).
    destruct I3 as (I3 & _).
    assert (W' := W). destruct W' as (W0 & W1 & W2 & W3 & W4). cbn [r_dims r_starts r_steps r_vals] in *.
    rewrite reg_axes_npts by auto. split; [apply reg_axes_good; auto|]. split; [apply W4|].
    intros x Lx Hx. rewrite reg_axes_length in Lx by auto.
    rewrite mlr_char; auto; [|apply usize_converts_R].
    destruct (fits_reg_cells (mkRegular dims starts steps vals) (lo := isize_min) (Z.le_refl _) Lx Hx) as (os & E & Lo & Hc).
    rewrite E. cbn [bind]. f_equal. apply lin_tens_reg; auto.
  - assert (Hs := steps_mlrr _ _ _ _ _ _ Hn). destruct (mlrr_new_inv ROps m Hi Hn) as (W & -> & Hm).
    destruct I3 as (I3 & _).
    assert (W' := W). destruct W' as (W0 & W1 & W2 & W3 & W4). cbn [r_dims r_starts r_steps r_vals] in *.
    rewrite reg_axes_npts by auto. split; [apply reg_axes_good; auto|]. split; [apply W4|].
    intros x Lx Hx. rewrite reg_axes_length in Lx by auto.
    rewrite mlrr_char; auto; [|apply usize_converts_R].
    destruct (fits_reg_cells (mkRegular dims starts steps vals) (lo := isize_min) (Z.le_refl _) Lx Hx) as (os & E & Lo & Hc).
    rewrite E. cbn [bind]. f_equal. apply lin_tens_reg; auto.
  - destruct (mlc_new_inv ROps Hi Hn) as (W & ->).
    assert (W' := W). destruct W' as (W0 & W1 & W2 & W3). cbn [g_dims g_grids g_vals] in *.
    rewrite rect_axes_npts. split; [apply rect_axes_good; auto|]. split; [apply W3|].
    intros x Lx _. unfold rect_axes in Lx. rewrite map_length in Lx.
    rewrite mlc_char by auto. f_equal. apply (lin_tens_rect c (s := mkRect grids (map zlen grids) vals)); auto.
  - destruct (mlcr_new_inv ROps m Hi Hn) as (W & -> & Hm).
    assert (W' := W). destruct W' as (W0 & W1 & W2 & W3). cbn [g_dims g_grids g_vals] in *.
    rewrite rect_axes_npts. split; [apply rect_axes_good; auto|]. split; [apply W3|].
    intros x Lx _. unfold rect_axes in Lx. rewrite map_length in Lx.
    rewrite mlcr_char by auto. f_equal. apply (lin_tens_rect c (s := mkRect grids (map zlen grids) vals)); auto.
Qed.

Theorem multicubic_value c lin vals axes dom eval : multicubic c lin vals axes dom eval ->
  Forall (good_axis 4) axes /\ zlen vals = zprod (map npts axes) /\
  forall x, length x = length axes -> dom x ->
    eval x = Ok (tenL (ops1 (cub1 lin) axes x) (entry 0 (map npts axes) vals)).
Proof.
  intros [dims starts steps s Hi Hn|m dims starts steps s Hi Hn|grids s Hi Hg Hn|m grids s Hi Hg Hn];
    assert (Hi' := Hi); destruct Hi' as (I1 & I2 & I3).
  - assert (Hs := steps_mcr _ _ _ _ _ _ Hn). destruct (mcr_new_inv ROps lin Hi Hn) as (W & ->).
    destruct I3 as (I3 & _).
    assert (W' := W). destruct W' as (W0 & W1 & W2 & W3 & W4). cbn [cr_base r_dims r_starts r_steps r_vals] in *.
    rewrite reg_axes_npts by auto. split; [apply reg_axes_good; auto|]. split; [apply W4|].
    intros x Lx Hx. rewrite reg_axes_length in Lx by auto.
    rewrite mcr_char; auto; [|apply usize_converts_R].
    destruct (fits_creg_cells c (mkRegular dims starts steps vals) Lx Hx) as (os & E & Lo & Hc).
    cbn [cr_base cr_lin]. rewrite E. cbn [bind]. f_equal. apply cub_tens_reg; auto.
  - assert (Hs := steps_mcrr _ _ _ _ _ _ _ Hn). destruct (mcrr_new_inv ROps m lin Hi Hn) as (W & -> & Hm).
    destruct I3 as (I3 & _).
    assert (W' := W). destruct W' as (W0 & W1 & W2 & W3 & W4). cbn [cr_base r_dims r_starts r_steps r_vals] in *.
    rewrite reg_axes_npts by auto. split; [apply reg_axes_good; auto|]. split; [apply W4|].
    intros x Lx Hx. rewrite reg_axes_length in Lx by auto.
    rewrite mcrr_char; auto; [|apply usize_converts_R].
    destruct (fits_creg_cells c (mkRegular dims starts steps vals) Lx Hx) as (os & E & Lo & Hc).
    cbn [cr_base cr_lin]. rewrite E. cbn [bind]. f_equal. apply cub_tens_reg; auto.
  - destruct (mcc_new_inv ROps lin Hi Hn) as (W & ->).
    assert (W' := W). destruct W' as (W0 & W1 & W2 & W3). cbn [cc_base g_dims g_grids g_vals] in *.
    rewrite rect_axes_npts. split; [apply rect_axes_good; auto|]. split; [apply W3|].
    intros x Lx _. unfold rect_axes in Lx. rewrite map_length in Lx.
    rewrite mcc_char by auto. f_equal. apply (cub_tens_rect c (s := mkRect grids (map zlen grids) vals)); auto.
  - destruct (mccr_new_inv ROps m lin Hi Hn) as (W & -> & Hm).
    assert (W' := W). destruct W' as (W0 & W1 & W2 & W3). cbn [cc_base g_dims g_grids g_vals] in *.
    rewrite rect_axes_npts. split; [apply rect_axes_good; auto|]. split; [apply W3|].
    intros x Lx _. unfold rect_axes in Lx. rewrite map_length in Lx.
    rewrite mccr_char by auto. f_equal. apply (cub_tens_rect c (s := mkRect grids (map zlen grids) vals)); auto.
Qed.
