(** Grids whose computed differences are all equal, treated as regular grids: distance from the
    exact interpolant of the grid as given. *)
From Coq Require Import Reals Lra Lia List Bool ZifyBool ZifyNat PeanoNat.
From Flocq Require Import Core.Core IEEE754.BinarySingleNaN.
From Verif Require Import Base Ops FInst ModelCore ModelLinear ModelPython Spec SpecOrder SpecIEEE SpecError SpecPython.
From Verif Require Import CoreLemmas MethodLemmas MethodChar GenLemmas FLemmas FProofs FProofs2 FError FError2.
From Verif Require Import RInst SpecReal RTensor R1D RChar Interpolators REval RProofs SpecApprox Approx1D Approx Shape FApprox.
From Verif Require Import SpecExtrap SpecReach Extrap1D Extrap FExtrap SpecMoved Moved SpecDetect.
Import ListNotations.
Unset Implicit Arguments.
Open Scope list_scope.
Open Scope R_scope.

(** ** Products and sums of constants *)
Lemma prod_const n y : 0 <= y -> INR n * y < 1 -> prod_upto n (fun _ => 1 + y) * (1 - INR n * y) <= 1.
Proof.
  intros Hy. induction n as [|n IH]; intros Hn; [unfold prod_upto; simpl; lra|]. rewrite prod_upto_S.
  rewrite S_INR in *. assert (N0 := pos_INR n). assert (I := IH ltac:(lra)).
  assert (P0 : 0 <= prod_upto n (fun _ => 1 + y)) by (apply prod_upto_nonneg; intros; lra).
  apply Rle_trans with (2 := I). replace ((1 + y) * prod_upto n (fun _ => 1 + y) * (1 - (INR n + 1) * y))
    with (prod_upto n (fun _ => 1 + y) * ((1 - INR n * y) - (INR n + 1) * y * y)) by ring.
  apply Rmult_le_compat_l; auto. assert (0 <= (INR n + 1) * y * y) by (apply Rmult_le_pos; [apply Rmult_le_pos|]; lra). lra.
Qed.
Lemma sum_const n y : sum_upto n (fun _ => y) = INR n * y.
Proof. induction n as [|n IH]; [unfold sum_upto; simpl; ring|]. rewrite sum_upto_S, IH, S_INR. ring. Qed.

Section B.
Variables prec emax : Z.
Context (Hp : Prec_gt_0 prec) (He : Prec_lt_emax prec emax).
Notation fl := (binary_float prec emax).
Notation o := (BOps Hp He).
Notation fin x := (is_finite x = true).
Notation u := (roundoff prec).
Notation step g := (first_step prec emax Hp He g).
Notation pt g i := (B2R (nth i g (fzero o))).

(** ** One grid *)
Section Grid.
Variables (g : list fl) (kappa : R).
Hypothesis (Hl : (2 <= length g)%nat) (Hi : increasing_grid o g) (He' : evenly_spaced o g).
Hypothesis (Hw : grid_within prec emax Hp He kappa g) (Hk : 525 * (u * kappa) <= 1).
Notation h := (B2R (step g)).

Lemma pt_ok i : (i < length g)%nat -> fin (nth i g (fzero o)) /\ Rabs (pt g i) <= kappa * h.
Proof using All. destruct Hw as (_ & _ & H). rewrite Forall_forall in H. intros Hi'. apply H. apply nth_In. exact Hi'. Qed.

Lemma pt_lt i : (S i < length g)%nat -> pt g i < pt g (S i).
Proof using All.
  intros H. apply (@ltb_fin _ _ Hp He); try (apply pt_ok; lia). apply (Hi i (S i)); [lia| |]; apply nth_error_nth'; lia.
Qed.

Lemma diff_ok i : (S i < length g)%nat -> h = B2R (fsub o (nth (S i) g (fzero o)) (nth i g (fzero o))) /\
  Rabs (h - (pt g (S i) - pt g i)) <= u * (pt g (S i) - pt g i).
Proof using All.
  intros H. destruct (pt_ok i ltac:(lia)) as (F0 & B0). destruct (pt_ok (S i) H) as (F1 & B1). assert (L := pt_lt i H).
  destruct Hw as (Fh & Hm & _).
  assert (Q : Rabs (pt g (S i) - pt g i) <= bpow radix2 (emax - 1)).
  { replace (emax - 1)%Z with (1 + 2 + (emax - 4))%Z by lia. rewrite !bpow_plus. change (bpow radix2 1) with 2. change (bpow radix2 2) with 4.
    apply Rabs_le_inv in B0, B1. apply Rabs_le. lra. }
  destruct (sub_ok prec emax Hp He _ _ F1 F0 (rnd_lt prec emax Hp He _ Q)) as (Fs & Vs).
  assert (S : same_number o (fsub o (nth (S i) g (fzero o)) (nth i g (fzero o))) (step g)).
  { apply (He' i); apply nth_error_nth'; lia. }
  destruct S as (S1 & S2). apply leb_fin in S1; auto. apply leb_fin in S2; auto.
  assert (E : h = B2R (fsub o (nth (S i) g (fzero o)) (nth i g (fzero o)))) by lra. split; [exact E|].
  rewrite E, Vs. rewrite <- (Rabs_pos_eq (pt g (S i) - pt g i)) at 3 by lra.
  apply (rnd_rel prec emax Hp). apply on_grid_sub; apply on_grid_fl; assumption.
Qed.

Lemma u_range : 0 < u <= / 128.
Proof using All.
  split; [apply bpow_gt_0|]. assert (U0 : 0 < u) by apply bpow_gt_0.
  destruct (pt_ok 0 ltac:(lia)) as (_ & B0). destruct (pt_ok 1 ltac:(lia)) as (_ & B1).
  destruct (diff_ok 0 ltac:(lia)) as (_ & D). assert (L := pt_lt 0 ltac:(lia)).
  apply Rabs_le_inv in B0, B1, D.
  assert (U1 : u <= 1).
  { unfold roundoff. change 1 with (bpow radix2 0). apply bpow_le. unfold Prec_gt_0 in Hp. lia. }
  assert (U2 : h <= 2 * (pt g 1 - pt g 0)) by nra.
  assert (H0 : 0 <= h) by nra.
  assert (Hp0 : 0 < h).
  { destruct (Req_dec h 0) as [E|E]; [|lra]. rewrite E in B0, B1. lra. }
  assert (K : / 4 <= kappa).
  { apply Rmult_le_reg_r with (1 := Hp0). lra. }
  nra.
Qed.
Lemma h_pos : 0 < h.
Proof using All.
  destruct u_range as (U0 & U1). destruct (diff_ok 0 ltac:(lia)) as (_ & D). assert (L := pt_lt 0 ltac:(lia)). apply Rabs_le_inv in D. nra.
Qed.

Lemma gap_near i : (S i < length g)%nat -> Rabs (pt g (S i) - pt g i - h) <= 65 / 64 * u * h /\ h <= 65 / 64 * (pt g (S i) - pt g i).
Proof using All.
  intros H. destruct u_range as (U0 & U1). destruct (diff_ok i H) as (_ & D). assert (L := pt_lt i H). assert (H0 := h_pos).
  set (dd := pt g (S i) - pt g i) in *. assert (Hd : 0 < dd) by (unfold dd; lra). clearbody dd. apply Rabs_le_inv in D.
  assert (P : u * dd <= / 128 * dd) by (apply Rmult_le_compat_r; lra).
  assert (P2 : dd <= 128 / 127 * h) by lra.
  split; [|lra]. assert (P3 : u * dd <= 65 / 64 * u * h).
  { replace (65 / 64 * u * h) with (u * (65 / 64 * h)) by ring. apply Rmult_le_compat_l; lra. }
  apply Rabs_le. lra.
Qed.

Lemma drift i : (i < length g)%nat -> Rabs (pt g i - (pt g 0 + h * INR i)) <= INR i * (65 / 64 * u * h).
Proof using All.
  induction i as [|i IH]; intros H.
  - simpl. rewrite Rmult_0_r, Rplus_0_r, Rmult_0_l, Rminus_diag_eq, Rabs_R0 by auto. lra.
  - rewrite S_INR. assert (I := IH ltac:(lia)). destruct (gap_near i H) as (G & _). apply Rabs_le_inv in I, G. apply Rabs_le. lra.
Qed.
Lemma spread i : (i < length g)%nat -> INR i * h <= 65 / 64 * (pt g i - pt g 0).
Proof using All.
  induction i as [|i IH]; intros H; [simpl; lra|].
  rewrite S_INR. assert (I := IH ltac:(lia)). destruct (gap_near i H) as (_ & G). lra.
Qed.
Lemma count_le i : (i < length g)%nat -> INR i <= 65 / 32 * kappa.
Proof using All.
  intros H. assert (S := spread i H). destruct (pt_ok 0 ltac:(lia)) as (_ & B0). destruct (pt_ok i H) as (_ & B1).
  apply Rabs_le_inv in B0, B1. apply Rmult_le_reg_r with (1 := h_pos). lra.
Qed.
Lemma drift_le i : (i < length g)%nat -> Rabs (pt g i - (pt g 0 + h * INR i)) <= 3 * (u * kappa) * h.
Proof using All.
  intros H. eapply Rle_trans; [apply drift; auto|]. assert (C := count_le i H). destruct u_range as (U0 & U1). assert (H0 := h_pos).
  assert (N0 := pos_INR i). replace (INR i * (65 / 64 * u * h)) with (INR i * (65 / 64) * (u * h)) by ring.
  replace (3 * (u * kappa) * h) with (3 * kappa * (u * h)) by ring. apply Rmult_le_compat_r; [|lra].
  apply Rmult_le_pos; lra.
Qed.
Lemma kappa_pos : / 4 <= kappa.
Proof using All. assert (C := count_le 1 ltac:(lia)). simpl in C. lra. Qed.

Lemma axis_ok : axis_within prec emax (25 / 24 * kappa) (nth 0 g (fzero o)) (step g) (zlen g).
Proof using All.
  assert (H0 := h_pos). assert (K0 := kappa_pos). destruct u_range as (U0 & U1).
  assert (KH : 0 < kappa * h) by (apply Rmult_lt_0_compat; lra).
  destruct (pt_ok 0 ltac:(lia)) as (F0 & B0). destruct (pt_ok (length g - 1) ltac:(lia)) as (_ & B1).
  destruct Hw as (Fh & Hm & _). split; [exact F0|]. split; [exact Fh|]. split; [lra|]. split.
  - assert (D := drift_le (length g - 1) ltac:(lia)). replace (IZR (zlen g - 1)) with (INR (length g - 1)).
    2:{ rewrite INR_IZR_INZ. f_equal. unfold zlen. lia. }
    apply Rabs_le_inv in D, B1. assert (Q : 3 * (u * kappa) * h <= / 24 * (kappa * h)).
    { replace (3 * (u * kappa) * h) with (3 * u * (kappa * h)) by ring. apply Rmult_le_compat_r; lra. }
    apply Rabs_le. lra.
  - replace (emax - 3)%Z with (1 + (emax - 4))%Z by lia. rewrite bpow_plus. change (bpow radix2 1) with 2.
    assert (P := bpow_gt_0 radix2 (emax - 4)). lra.
Qed.

Notation ga := (list_axis (map B2R g)).
Notation ra := (mkAxis (zlen g) (fun i => pt g 0 + h * IZR i)).
Lemma ga_coord i : coord ga i = pt g (Z.to_nat i).
Proof using. cbn [coord list_axis]. apply (nth_B2R prec emax Hp He). Qed.
Lemma ga_npts : npts ga = zlen g.
Proof using. cbn [npts list_axis]. unfold zlen. rewrite map_length. reflexivity. Qed.
Lemma ga_good : good_axis 2 ga.
Proof using All.
  split; [|rewrite ga_npts; unfold zlen; lia].
  apply list_axis_inc. apply (increasing_B2R prec emax Hp He); auto.
  destruct Hw as (_ & _ & H). eapply Forall_impl; [|exact H]. intros v Hv. apply Hv.
Qed.
Lemma moved_axis : nodes_within (3 * (u * kappa) * h) ga ra.
Proof using All.
  split; [apply ga_npts|]. intros i Hr. rewrite ga_npts in Hr. rewrite ga_coord. cbn [coord].
  assert (D := drift_le (Z.to_nat i) ltac:(unfold zlen in Hr; lia)). rewrite INR_IZR_INZ, Z2Nat.id in D by lia. exact D.
Qed.
Lemma gap_wide i : (0 <= i)%Z -> (i + 1 < npts ga)%Z -> h <= 65 / 64 * spacing ga i.
Proof using All.
  intros I1 I2. rewrite ga_npts in I2. unfold spacing. rewrite !ga_coord.
  destruct (gap_near (Z.to_nat i)) as (_ & G); [unfold zlen in I2; lia|].
  replace (Z.to_nat (i + 1)) with (S (Z.to_nat i)) by lia. exact G.
Qed.
Lemma little_outside x : coord ga 0 <= x <= coord ga (npts ga - 1) -> overshoot ra x <= 3 * (u * kappa).
Proof using All.
  intros (X0 & X1). rewrite ga_npts in X1. rewrite ga_coord in X0, X1. assert (H0 := h_pos). assert (K0 := kappa_pos). destruct u_range as (U0 & _).
  assert (D := drift_le (length g - 1) ltac:(lia)). apply Rabs_le_inv in D.
  replace (Z.to_nat (zlen g - 1)) with (length g - 1)%nat in X1 by (unfold zlen; lia).
  change (Z.to_nat 0) with 0%nat in X0.
  assert (K : 0 <= 3 * (u * kappa)) by (apply Rmult_le_pos; [lra|apply Rmult_le_pos; lra]).
  unfold overshoot, spacing. cbn [coord npts].
  replace (pt g 0 + h * IZR (0 + 1) - (pt g 0 + h * IZR 0)) with h by (simpl; ring).
  replace (pt g 0 + h * IZR (zlen g - 2 + 1) - (pt g 0 + h * IZR (zlen g - 2))) with h by (rewrite plus_IZR; ring).
  apply Rmax_lub; [exact K|]. apply Rmax_lub.
  - apply Rle_trans with (2 := K). apply Rmult_le_reg_r with (1 := H0). unfold Rdiv. rewrite Rmult_assoc, Rinv_l by lra. lra.
  - apply Rmult_le_reg_r with (1 := H0). unfold Rdiv. rewrite Rmult_assoc, Rinv_l by lra.
    replace (IZR (zlen g - 1)) with (INR (length g - 1)) by (rewrite INR_IZR_INZ; f_equal; unfold zlen; lia). lra.
Qed.
Lemma x_within x : coord ga 0 <= x <= coord ga (npts ga - 1) -> Rabs x <= 25 / 24 * kappa * h.
Proof using All.
  intros (X0 & X1). rewrite ga_npts in X1. rewrite ga_coord in X0, X1. assert (H0 := h_pos). assert (K0 := kappa_pos).
  assert (KH : 0 < kappa * h) by (apply Rmult_lt_0_compat; lra).
  destruct (pt_ok 0 ltac:(lia)) as (_ & B0). destruct (pt_ok (Z.to_nat (zlen g - 1)) ltac:(unfold zlen; lia)) as (_ & B1).
  change (Z.to_nat 0) with 0%nat in X0. apply Rabs_le_inv in B0, B1. apply Rabs_le. lra.
Qed.
End Grid.

(** ** All grids *)
Section Grids.
Variables (c : cfg) (grids : list (list fl)) (vals : list fl) (eval : list fl -> outcome fl) (x : list fl) (A kappa : R).
Notation axes := (rect_axes (map (map B2R) grids)).
Notation xr := (map B2R x).
Notation V := (entry 0 (map npts axes) (map B2R vals)).
Notation dims := (map zlen grids).
Notation starts := (firsts (fzero o) grids).
Notation steps := (spacings o (fzero o) grids).
Notation N := (length grids).
Notation eps := (u * kappa).
Notation ga g := (list_axis (map B2R g)).
Notation ra g := (mkAxis (zlen g) (fun i => pt g 0 + B2R (step g) * IZR i)).
Hypothesis Hf : float_regular Hp He c dims starts steps vals eval.
Hypothesis Hi : Forall (increasing_grid o) grids.
Hypothesis Hev : Forall (evenly_spaced o) grids.
Hypothesis Hw : Forall (grid_within prec emax Hp He kappa) grids.
Hypothesis Fx : Forall (fun v => fin v) x.
Hypothesis Hx : SpecReal.inside_grid axes xr.
Hypothesis Hv : bounded_values prec emax A vals.
Hypothesis HA : A <= bpow radix2 (emax - 5).
Hypothesis HN : 525 * INR N * eps <= 1.
Hypothesis Hprec : (prec <= 64)%Z.

Lemma rect_map : axes = map (fun g => ga g) grids.
Proof using. unfold rect_axes. rewrite map_map. reflexivity. Qed.
Lemma reg_map : reg_axes dims (map B2R starts) (map B2R steps) = map (fun g => ra g) grids.
Proof using.
  clear. unfold firsts, spacings. induction grids as [|g gs IH]; [reflexivity|]. cbn [map reg_axes]. f_equal. exact IH.
Qed.
Lemma wf : (1 <= N)%nat /\ Forall (fun g => (2 <= length g)%nat) grids.
Proof using Hf.
  destruct (float_regular_inv _ _ _ _ _ _ _ _ _ _ Hf) as ((W0 & _ & _ & W & _) & _). cbn [r_dims] in *. rewrite map_length in W0.
  split; [lia|]. rewrite Forall_map in W. eapply Forall_impl; [|exact W]. unfold zlen. intros g Hg. simpl in Hg. lia.
Qed.
Lemma eps_small : 525 * eps <= 1.
Proof using Hf HN.
  destruct wf as (W & _). assert (1 <= INR N) by (change 1 with (INR 1); apply le_INR; lia).
  destruct (Rle_dec eps 0) as [E|E]; [lra|]. nra.
Qed.
Lemma grid_ok k g : nth_error grids k = Some g ->
  (2 <= length g)%nat /\ increasing_grid o g /\ evenly_spaced o g /\ grid_within prec emax Hp He kappa g.
Proof using Hf Hi Hev Hw.
  intros Hk. apply nth_error_In in Hk. destruct wf as (_ & W). rewrite Forall_forall in W, Hi, Hev, Hw. auto.
Qed.
Lemma eps_pos : 0 <= eps /\ u <= / 64.
Proof using All.
  destruct wf as (W & _). destruct grids as [|g gs] eqn:E; [simpl in W; lia|]. rewrite <- E in *.
  assert (Hg : nth_error grids 0 = Some g) by (rewrite E; reflexivity).
  destruct (grid_ok 0 g Hg) as (G1 & G2 & G3 & G4).
  assert (K := kappa_pos g kappa G1 G2 G3 G4 eps_small). destruct (u_range g kappa G1 G2 G3 G4 eps_small).
  split; [apply Rmult_le_pos; lra|lra].
Qed.
Lemma k_lt k g : nth_error grids k = Some g -> (k < N)%nat.
Proof using. intros H. apply nth_error_Some. rewrite H. discriminate. Qed.
Lemma rect_k k g : nth_error grids k = Some g -> nth_error axes k = Some (ga g).
Proof using. intros H. rewrite rect_map. apply map_nth_error with (f := fun g => ga g). exact H. Qed.
Lemma reg_k k g : nth_error grids k = Some g -> nth_error (map (fun g => ra g) grids) k = Some (ra g).
Proof using. intros H. apply map_nth_error with (f := fun g => ra g). exact H. Qed.
Lemma len_x : length x = N.
Proof using Hx. destruct Hx as (L & _). unfold rect_axes in L. rewrite !map_length in L. exact L. Qed.
Lemma x_k k g : nth_error grids k = Some g -> coord (ga g) 0 <= nth k xr 0 <= coord (ga g) (npts (ga g) - 1).
Proof using Hx. intros H. destruct Hx as (_ & I). apply (I k). apply rect_k. exact H. Qed.

Lemma out_rect k : (k < N)%nat -> outside_by axes xr k = 0.
Proof using All.
  intros Hk. destruct (nth_error grids k) as [g|] eqn:E; [|apply nth_error_None in E; lia].
  destruct (grid_ok k g E) as (G1 & G2 & G3 & G4). rewrite (outside_nth _ _ _ _ (rect_k k g E)).
  destruct (ga_good g kappa G1 G2 G3 G4 eps_small) as (Q1 & Q2). apply overshoot_inside; auto. apply x_k. exact E.
Qed.
Lemma out_reg k : (k < N)%nat -> 0 <= outside_by (map (fun g => ra g) grids) xr k <= 3 * eps.
Proof using All.
  intros Hk. split; [apply outside_nonneg|]. destruct (nth_error grids k) as [g|] eqn:E; [|apply nth_error_None in E; lia].
  destruct (grid_ok k g E) as (G1 & G2 & G3 & G4). rewrite (outside_nth _ _ _ _ (reg_k k g E)).
  apply (little_outside g kappa G1 G2 G3 G4 eps_small). apply x_k. exact E.
Qed.
Lemma growth n f : (n <= N)%nat -> (forall k, (k < n)%nat -> 0 <= f k <= 3 * eps) -> 1 <= prod_upto n (fun k => 1 + 2 * f k) <= 87 / 86.
Proof using All.
  intros Hn H. split; [apply prod_upto_ge_1; intros k Hk; specialize (H k Hk); lra|].
  destruct eps_pos as (E0 & U6). assert (Hn' : INR n <= INR N) by (apply le_INR; exact Hn). assert (N0 := pos_INR n).
  assert (S : INR n * (6 * eps) <= / 87) by nra.
  assert (P := prod_const n (6 * eps) ltac:(lra) ltac:(lra)).
  assert (Q : prod_upto n (fun k => 1 + 2 * f k) <= prod_upto n (fun _ => 1 + 6 * eps)).
  { apply prod_upto_le. intros k Hk. specialize (H k Hk). lra. }
  assert (P0 : 0 <= prod_upto n (fun _ => 1 + 6 * eps)) by (apply prod_upto_nonneg; intros; lra).
  apply Rle_trans with (1 := Q).
  set (p := prod_upto n (fun _ => 1 + 6 * eps)) in *. set (t := INR n * (6 * eps)) in *. clearbody p t.
  assert (p * (86 / 87) <= p * (1 - t)) by (apply Rmult_le_compat_l; lra). lra.
Qed.

Lemma moved_ok : moved_grid (fun k => 3 * eps * B2R (step (nth k grids []))) axes (map (fun g => ra g) grids).
Proof using All.
  split; [unfold rect_axes; rewrite !map_length; reflexivity|].
  intros k a b Ha Hb. destruct (nth_error grids k) as [g|] eqn:E.
  - rewrite (rect_k k g E) in Ha. rewrite (reg_k k g E) in Hb. injection Ha as <-. injection Hb as <-.
    rewrite (nth_error_nth grids k [] E). destruct (grid_ok k g E) as (G1 & G2 & G3 & G4).
    apply (moved_axis g kappa G1 G2 G3 G4 eps_small).
  - assert (K := proj1 (nth_error_None grids k) E).
    assert (K' : (k < length axes)%nat) by (apply nth_error_Some; rewrite Ha; discriminate).
    unfold rect_axes in K'. rewrite !map_length in K'. lia.
Qed.
Lemma good_rect : Forall (good_axis 2) axes.
Proof using All.
  rewrite rect_map, Forall_map, Forall_forall. intros g Hg. apply In_nth_error in Hg as (k & E).
  destruct (grid_ok k g E) as (G1 & G2 & G3 & G4). exact (ga_good g kappa G1 G2 G3 G4 eps_small).
Qed.

Lemma in_shape_nth ds idx k d : in_shape ds idx -> nth_error ds k = Some d -> (0 <= nth k idx 0 < d)%Z.
Proof using.
  intros H. revert k. induction H as [|e i ds idx Hi' H IH]; intros [|k] Hk; simpl in *; try discriminate; auto. injection Hk as ->. lia.
Qed.
Lemma slopes k idx : (k < N)%nat -> in_shape (map npts axes) idx -> in_shape (map npts axes) (next_along k idx) ->
  Rabs (V (next_along k idx) - V idx) <= 65 / 32 * A / B2R (step (nth k grids [])) * spacing (nth k axes no_axis) (nth k idx 0%Z).
Proof using All.
  intros Hk H1 H2. destruct Hv as ((A0 & _) & Hvs).
  assert (B : forall idx, Rabs (V idx) <= A).
  { intros i. rewrite (entry_real prec emax Hp He). apply entry_bound; auto. }
  destruct (nth_error grids k) as [g|] eqn:Eg; [|apply nth_error_None in Eg; lia].
  destruct (grid_ok k g Eg) as (G1 & G2 & G3 & G4). assert (S := h_pos g kappa G1 G2 G3 G4 eps_small).
  assert (B1 := B idx). assert (B2 := B (next_along k idx)). apply Rabs_le_inv in B1, B2.
  rewrite (nth_error_nth axes k no_axis (rect_k k g Eg)). rewrite (nth_error_nth grids k [] Eg).
  assert (NG : nth_error (map npts axes) k = Some (npts (ga g))) by (apply map_nth_error; apply rect_k; exact Eg).
  assert (I1 := in_shape_nth _ _ _ _ H1 NG). assert (I2 := in_shape_nth _ _ _ _ H2 NG).
  unfold next_along in I2. rewrite nth_upd_sameZ in I2.
  2:{ apply Forall2_len in H1. rewrite map_length in H1. unfold rect_axes in H1. rewrite !map_length in H1. lia. }
  assert (Wd := gap_wide g kappa G1 G2 G3 G4 eps_small (nth k idx 0%Z) ltac:(lia) ltac:(lia)).
  apply Rle_trans with (2 * A); [apply Rabs_le; lra|].
  replace (65 / 32 * A / B2R (step g) * spacing (ga g) (nth k idx 0%Z)) with (2 * A * (65 / 64 * spacing (ga g) (nth k idx 0%Z) / B2R (step g))) by (field; lra).
  rewrite <- (Rmult_1_r (2 * A)) at 1. apply Rmult_le_compat_l; [lra|].
  apply Rmult_le_reg_r with (1 := S). unfold Rdiv. rewrite Rmult_assoc, Rinv_l by lra. lra.
Qed.

Theorem detected : exists y, eval x = Ok y /\ fin y /\
  Rabs (B2R y - tenL (ops1 lin1 axes xr) V) <= detected_error prec emax N kappa A.
Proof using All.
  destruct Hv as ((A0 & A1) & Hvs). destruct eps_pos as (E0 & U6). destruct wf as (W & _). assert (U0 : 0 < underflow prec emax) by (apply eta_pos).
  assert (N1 : 1 <= INR N) by (change 1 with (INR 1); apply le_INR; lia).
  assert (F : moved_factor axes (map (fun g => ra g) grids) xr <= 87 / 86 /\ 1 <= moved_factor axes (map (fun g => ra g) grids) xr).
  { unfold moved_factor. replace (length axes) with N by (unfold rect_axes; rewrite !map_length; reflexivity).
    rewrite and_comm. apply growth; auto. intros k Hk. rewrite (out_rect k Hk). destruct (out_reg k Hk). rewrite Rmax_right by lra. lra. }
  assert (F' : 1 <= reach_factor (map (fun g => ra g) grids) xr <= 87 / 86).
  { unfold reach_factor. rewrite map_length. apply growth; auto. intros k Hk. apply out_reg; auto. }
  assert (P4 : 1 <= bpow radix2 (emax - 5)).
  { change 1 with (bpow radix2 0). apply bpow_le. assert (Q := prec_6 prec emax Hp He U6). unfold Prec_gt_0, Prec_lt_emax in *. lia. }
  assert (P5 : bpow radix2 (emax - 4) = 2 * bpow radix2 (emax - 5)).
  { replace (emax - 4)%Z with (1 + (emax - 5))%Z by lia. rewrite bpow_plus. reflexivity. }
  destruct (reach_regular prec emax Hp He c dims starts steps vals eval x A (25 / 24 * kappa) Hf) as (G & y & E & Fy & R); auto.
  - intros k s h d Es Eh Ed. unfold firsts in Es. unfold spacings in Eh. rewrite nth_error_map in Es, Eh, Ed.
    destruct (nth_error grids k) as [g|] eqn:Eg; [|discriminate]. simpl in Es, Eh, Ed. injection Es as <-. injection Eh as <-. injection Ed as <-.
    destruct (grid_ok k g Eg) as (G1 & G2 & G3 & G4). exact (axis_ok g kappa G1 G2 G3 G4 eps_small).
  - rewrite map_length. apply len_x.
  - intros k h v Eh Ev. unfold spacings in Eh. rewrite nth_error_map in Eh.
    destruct (nth_error grids k) as [g|] eqn:Eg; [|discriminate]. simpl in Eh. injection Eh as <-.
    destruct (grid_ok k g Eg) as (G1 & G2 & G3 & G4). split.
    + rewrite Forall_forall in Fx. apply Fx. eapply nth_error_In; eauto.
    + apply (x_within g kappa G1 G2 G3 G4 eps_small). replace (B2R v) with (nth k xr 0); [apply x_k; exact Eg|].
      apply nth_error_nth. apply map_nth_error. exact Ev.
  - rewrite reg_map. split; [lra|]. assert (reach_factor (map (fun g => ra g) grids) xr * A <= 2 * A) by (apply Rmult_le_compat_r; lra). lra.
  - rewrite map_length. fold (roundoff prec). lra.
  - exists y. split; [exact E|]. split; [exact Fy|]. rewrite reg_map, map_length in R. rewrite reg_map in G.
    assert (NP : map npts (map (fun g => ra g) grids) = map npts axes).
    { rewrite rect_map, !map_map. apply map_ext. intros g. cbn [npts list_axis]. unfold zlen. rewrite map_length. reflexivity. }
    rewrite NP in R.
    assert (M := moved_val axes good_rect (map (fun g => ra g) grids) xr V (fun k => 3 * eps * B2R (step (nth k grids [])))
      (fun k => 65 / 32 * A / B2R (step (nth k grids []))) G moved_ok (proj1 Hx)).
    replace (length axes) with N in M by (unfold rect_axes; rewrite !map_length; reflexivity).
    assert (SL : forall k, (k < N)%nat -> 0 < B2R (step (nth k grids []))).
    { intros k Hk. destruct (nth_error grids k) as [g|] eqn:Eg; [|apply nth_error_None in Eg; lia].
      rewrite (nth_error_nth grids k [] Eg). destruct (grid_ok k g Eg) as (G1 & G2 & G3 & G4). exact (h_pos g kappa G1 G2 G3 G4 eps_small). }
    assert (M' := M (fun k Hk => Rmult_le_pos _ _ (Rmult_le_pos _ _ (ltac:(lra) : 0 <= 65 / 32) A0) (Rlt_le _ _ (Rinv_0_lt_compat _ (SL k Hk))))). clear M.
    specialize (M' slopes).
    rewrite (sum_upto_ext N _ (fun _ => 195 / 32 * eps * A)) in M' by (intros k Hk; assert (S := SL k Hk); field; lra).
    rewrite sum_const in M'.
    assert (EA : 0 <= eps * A) by (apply Rmult_le_pos; lra).
    assert (S1 : 0 <= INR N * (195 / 32 * eps * A)) by (apply Rmult_le_pos; [lra|]; lra).
    assert (S2 : 0 <= regular_error prec emax N (25 / 24 * kappa) A) by (unfold regular_error; apply Rmult_le_pos; [lra|]; lra).
    assert (M2 : moved_factor axes (map (fun g => ra g) grids) xr * (INR N * (195 / 32 * eps * A)) <= 87 / 86 * (INR N * (195 / 32 * eps * A)))
      by (apply Rmult_le_compat_r; lra).
    assert (R2 : reach_factor (map (fun g => ra g) grids) xr * regular_error prec emax N (25 / 24 * kappa) A <= 87 / 86 * regular_error prec emax N (25 / 24 * kappa) A)
      by (apply Rmult_le_compat_r; lra).
    assert (T : 87 / 86 * regular_error prec emax N (25 / 24 * kappa) A + 87 / 86 * (INR N * (195 / 32 * eps * A)) <= detected_error prec emax N kappa A).
    { unfold regular_error, detected_error.
      replace (87 / 86 * (INR N * (64 * (u * (25 / 24 * kappa)) * A + 3 * underflow prec emax)) + 87 / 86 * (INR N * (195 / 32 * eps * A)))
        with (INR N * (87 / 86 * (64 * (25 / 24) + 195 / 32) * (eps * A) + 87 / 86 * 3 * underflow prec emax)) by ring.
      apply Rmult_le_compat_l; lra. }
    apply Rabs_le_inv in R, M'. apply Rabs_le. lra.
Qed.
End Grids.
End B.
