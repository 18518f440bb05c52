(** Steepness of the one-dimensional linear interpolants in exact arithmetic. *)
From Coq Require Import Reals Lra Lia ZArith List Psatz.
From Verif Require Import Base Ops RInst ModelOneDim Spec SpecReal Spec1D Spec1DShape.
From Verif Require Import RChar RProofs3 OneDimProofs OneDimMaps.
Import ListNotations.
Unset Implicit Arguments.
Open Scope R_scope.

Section Shape.
Variables (a : axis) (vals : list R) (m M : R).
Hypotheses (G : good_axis 2 a) (S : slopes_between a vals m M).

Lemma slope_between i : (0 <= i <= npts a - 2)%Z ->
  m <= (val_at vals (i + 1) - val_at vals i) / (coord a (i + 1) - coord a i) <= M.
Proof using All.
  intros Hi. assert (P := gap_pos a i G Hi). destruct (S i Hi) as (A & B).
  split; [apply Rmult_le_reg_r with (coord a (i + 1) - coord a i)|apply Rmult_le_reg_r with (coord a (i + 1) - coord a i)]; auto;
    unfold Rdiv; rewrite Rmult_assoc, Rinv_l by lra; lra.
Qed.
Lemma line_same i x y : (0 <= i <= npts a - 2)%Z -> x <= y ->
  m * (y - x) <= line a vals y i - line a vals x i <= M * (y - x).
Proof using All.
  intros Hi L. destruct (slope_between i Hi) as (A & B). unfold line.
  set (s := (_ - _) / _) in *.
  replace (val_at vals i + s * (y - coord a i) - (val_at vals i + s * (x - coord a i))) with (s * (y - x)) by ring.
  split; apply Rmult_le_compat_r; lra.
Qed.
Lemma line_node i : (0 <= i <= npts a - 2)%Z -> line a vals (coord a (i + 1)) i = val_at vals (i + 1).
Proof using All. intros Hi. assert (P := gap_pos a i G Hi). unfold line. field. lra. Qed.
Lemma line_start i : line a vals (coord a i) i = val_at vals i.
Proof. unfold line. ring. Qed.
Lemma coord_mono i j : (0 <= i)%Z -> (i <= j)%Z -> (j < npts a)%Z -> coord a i <= coord a j.
Proof using All. intros Hi L Hj. destruct (Z.eq_dec i j) as [->|N]; [lra|]. left. apply (proj1 G); lia. Qed.
Lemma line_steps (k : nat) : forall i x y, in_cell a x i -> in_cell a y (i + Z.of_nat k) -> x <= y ->
  m * (y - x) <= line a vals y (i + Z.of_nat k) - line a vals x i <= M * (y - x).
Proof using All.
  induction k as [|k IH]; intros i x y Cx Cy L.
  - replace (i + Z.of_nat 0)%Z with i in * by lia. apply line_same; [exact (proj1 Cx)|exact L].
  - replace (i + Z.of_nat (Datatypes.S k))%Z with (i + 1 + Z.of_nat k)%Z in * by lia.
    destruct Cx as (Ri & Lx & Ux). destruct Cy as (Rj & Ly & Uy).
    assert (X : x <= coord a (i + 1)) by (destruct Ux as [E|Ux]; [lia|exact Ux]).
    assert (Y : coord a (i + 1) <= y).
    { destruct Ly as [E|Ly]; [lia|]. apply Rle_trans with (2 := Ly). apply coord_mono; lia. }
    destruct (line_same i x (coord a (i + 1)) ltac:(lia) X) as (A1 & A2). rewrite line_node in A1, A2 by lia.
    assert (N : in_cell a (coord a (i + 1)) (i + 1)).
    { split; [lia|]. split; [right; lra|]. right. apply coord_mono; lia. }
    destruct (IH (i + 1)%Z (coord a (i + 1)) y N (conj Rj (conj Ly Uy)) Y) as (B1 & B2).
    rewrite line_start in B1, B2. split; lra.
Qed.
Lemma line_slopes i j x y : in_cell a x i -> in_cell a y j -> x <= y ->
  m * (y - x) <= line a vals y j - line a vals x i <= M * (y - x).
Proof using All.
  intros Cx Cy L. destruct (Z_le_gt_dec i j) as [H|H].
  - assert (E : j = (i + Z.of_nat (Z.to_nat (j - i)))%Z) by lia. rewrite E in Cy |- *. apply line_steps; auto.
  - destruct Cx as (Ri & Lx & Ux). destruct Cy as (Rj & Ly & Uy).
    assert (A : coord a i <= x) by (destruct Lx as [E|Lx]; [lia|exact Lx]).
    assert (B : y <= coord a (j + 1)) by (destruct Uy as [E|Uy]; [lia|exact Uy]).
    assert (D : coord a (j + 1) <= coord a i) by (apply coord_mono; lia).
    assert (x = y) by lra. subst y.
    rewrite (line_cells a vals x i j G (conj Ri (conj Lx Ux)) (conj Rj (conj Ly Uy))). split; lra.
Qed.
End Shape.

Lemma slopes_linear c vals a dom at_ m M x y : grid1 c vals a dom at_ -> slopes_between a vals m M -> dom x -> dom y -> x <= y ->
  exists r r', linear1 ROps c at_ x = Ok r /\ linear1 ROps c at_ y = Ok r' /\ m * (y - x) <= r' - r <= M * (y - x).
Proof.
  intros H S D D' L. destruct (find_cell _ _ _ _ _ _ H D) as (N & G & i & Ci). destruct (find_cell _ _ _ _ _ _ H D') as (_ & _ & j & Cj).
  exists (line a vals x i), (line a vals y j). split; [eapply linear_line; eauto|]. split; [eapply linear_line; eauto|].
  apply line_slopes; auto.
Qed.

(** ** Clamping *)
Lemma clamp_inside a x : good_axis 2 a -> coord a 0 <= clamp a x <= coord a (npts a - 1).
Proof.
  intros G. destruct (coord_ends G) as (_ & _ & E). unfold clamp, Rmin, Rmax.
  destruct (Rle_dec x (coord a 0)), (Rle_dec _ (coord a (npts a - 1))); lra.
Qed.
Lemma clamp_id a x : coord a 0 <= x <= coord a (npts a - 1) -> clamp a x = x.
Proof. intros H. unfold clamp. rewrite Rmax_left by lra. apply Rmin_left. lra. Qed.
Lemma clamp_low a x : good_axis 2 a -> x < coord a 0 -> clamp a x = coord a 0.
Proof. intros G H. destruct (coord_ends G) as (_ & _ & E). unfold clamp. rewrite Rmax_right by lra. apply Rmin_left. lra. Qed.
Lemma clamp_high a x : good_axis 2 a -> coord a (npts a - 1) < x -> clamp a x = coord a (npts a - 1).
Proof. intros G H. destruct (coord_ends G) as (_ & _ & E). unfold clamp. rewrite Rmax_left by lra. apply Rmin_right. lra. Qed.
Lemma clamp_mono a x y : good_axis 2 a -> x <= y -> clamp a x <= clamp a y /\ clamp a y - clamp a x <= y - x.
Proof.
  intros G L. destruct (coord_ends G) as (_ & _ & E). unfold clamp, Rmin, Rmax.
  destruct (Rle_dec x (coord a 0)), (Rle_dec y (coord a 0)); repeat destruct (Rle_dec _ (coord a (npts a - 1))); lra.
Qed.
Lemma grid1_sizes c vals a dom at_ : grid1 c vals a dom at_ -> npts a = zlen vals /\ good_axis 2 a.
Proof.
  intros H. assert (H' := H). destruct H' as [start step g Hn Hs Hg|grid g Hn Hs Hg].
  - split; [reflexivity|]. split; [apply reg_axis_inc; auto|simpl; lia].
  - destruct (find_cell _ _ _ _ _ 0 H I) as (N & G & _). split; assumption.
Qed.
Lemma dom_inside c vals a dom at_ x : grid1 c vals a dom at_ -> coord a 0 <= x <= coord a (npts a - 1) -> dom x.
Proof.
  intros H. destruct H as [start step g Hn Hs Hg|grid g Hn Hs Hg]; [|intros _; exact I].
  cbn [coord npts]. intros (A & B). rewrite Rmult_0_r, Rplus_0_r in A.
  assert (A' : 0 <= (x - start) / step) by (apply Rmult_le_pos; [lra|left; apply Rinv_0_lt_compat; exact Hs]).
  assert (B' : (x - start) / step <= IZR (zlen vals - 1)).
  { apply Rmult_le_reg_r with step; [exact Hs|]. unfold Rdiv. rewrite Rmult_assoc, Rinv_l by lra. lra. }
  split; [apply Rle_trans with 0; [apply IZR_le; unfold isize_min; lia|exact A']|].
  apply Rle_lt_trans with (1 := B'). apply IZR_lt. lia.
Qed.
Lemma node_value c vals a dom at_ i : grid1 c vals a dom at_ -> (0 <= i < npts a)%Z -> linear1 ROps c at_ (coord a i) = Ok (val_at vals i).
Proof.
  intros H Hi. destruct (grid1_sizes _ _ _ _ _ H) as (N & G).
  assert (M : forall i j, (0 <= i)%Z -> (i <= j)%Z -> (j < npts a)%Z -> coord a i <= coord a j).
  { intros p q P L Q. destruct (Z.eq_dec p q) as [->|]; [lra|]. left. apply (proj1 G); lia. }
  assert (D : dom (coord a i)) by (eapply dom_inside; [exact H|]; split; apply M; lia).
  assert (G2 := proj2 G).
  destruct (Z.eq_dec i (npts a - 1)) as [E|E].
  - assert (C : in_cell a (coord a i) (i - 1)).
    { split; [lia|]. split; [right; apply M; lia|]. left. lia. }
    rewrite (linear_line _ _ _ _ _ _ _ H D C). f_equal.
    assert (P := gap_pos a (i - 1) G ltac:(lia)). unfold line. replace (i - 1 + 1)%Z with i in * by lia. field. lra.
  - assert (C : in_cell a (coord a i) i).
    { split; [lia|]. split; [right; lra|]. right. apply M; lia. }
    rewrite (linear_line _ _ _ _ _ _ _ H D C). f_equal. apply line_start.
Qed.
Theorem hold_is_clamped c vals a dom at_ x : grid1 c vals a dom at_ -> dom x -> 
  dom (clamp a x) /\ hold_last1 ROps c at_ x = linear1 ROps c at_ (clamp a x).
Proof.
  intros H D. destruct (grid1_sizes _ _ _ _ _ H) as (N & G). assert (G2 := proj2 G).
  split; [eapply dom_inside; [exact H|]; apply clamp_inside; exact G|].
  destruct (Rlt_le_dec x (coord a 0)) as [L|L]; [|destruct (Rlt_le_dec (coord a (npts a - 1)) x) as [L'|L']].
  - rewrite clamp_low by auto. rewrite (node_value _ _ _ _ _ 0%Z H) by lia.
    apply (proj1 (@C30_proof_outside _ _ _ _ _ _ H D)). exact L.
  - rewrite clamp_high by auto. rewrite (node_value _ _ _ _ _ (npts a - 1)%Z H) by lia. rewrite N.
    apply (proj2 (@C30_proof_outside _ _ _ _ _ _ H D)). exact L'.
  - rewrite clamp_id by lra. apply (@C30_proof_inside _ _ _ _ _ _ H D). lra.
Qed.
Theorem slopes_hold c vals a dom at_ m M x y : grid1 c vals a dom at_ -> slopes_between a vals m M -> dom x -> dom y -> x <= y ->
  exists r r', hold_last1 ROps c at_ x = Ok r /\ hold_last1 ROps c at_ y = Ok r' /\
    m * (clamp a y - clamp a x) <= r' - r <= M * (clamp a y - clamp a x).
Proof.
  intros H S D D' L. destruct (grid1_sizes _ _ _ _ _ H) as (N & G).
  destruct (hold_is_clamped _ _ _ _ _ _ H D) as (Dx & ->). destruct (hold_is_clamped _ _ _ _ _ _ H D') as (Dy & ->).
  apply (slopes_linear _ _ _ _ _ _ _ _ _ H S Dx Dy). apply clamp_mono; auto.
Qed.
Theorem hold_range c vals a dom at_ lo hi x : grid1 c vals a dom at_ -> dom x ->
  (forall i, (0 <= i < npts a)%Z -> lo <= val_at vals i <= hi) ->
  exists r, hold_last1 ROps c at_ x = Ok r /\ lo <= r <= hi.
Proof.
  intros H D R. destruct (grid1_sizes _ _ _ _ _ H) as (N & G).
  destruct (hold_is_clamped _ _ _ _ _ _ H D) as (Dx & ->).
  destruct (find_cell _ _ _ _ _ _ H Dx) as (_ & _ & i & C). exists (line a vals (clamp a x) i). split; [eapply linear_line; eauto|].
  assert (P := gap_pos a i G (proj1 C)). destruct (clamp_inside a x G) as (L0 & U0).
  destruct C as (Ri & L & U).
  assert (Li : coord a i <= clamp a x) by (destruct L as [->|L]; assumption).
  assert (Ui : clamp a x <= coord a (i + 1)).
  { destruct U as [->|U]; [replace (npts a - 2 + 1)%Z with (npts a - 1)%Z by lia|]; assumption. }
  destruct (R i ltac:(lia)) as (R1 & R2). destruct (R (i + 1)%Z ltac:(lia)) as (R3 & R4).
  unfold line. set (d := coord a (i + 1) - coord a i) in *. set (u := val_at vals i) in *. set (v := val_at vals (i + 1)) in *.
  set (w := (clamp a x - coord a i) / d).
  assert (W0 : 0 <= w) by (apply Rmult_le_pos; [lra|left; apply Rinv_0_lt_compat; exact P]).
  assert (W1 : w <= 1).
  { apply Rmult_le_reg_r with d; [exact P|]. unfold w, Rdiv. rewrite Rmult_assoc, Rinv_l by lra. unfold d. lra. }
  replace (u + (v - u) / d * (clamp a x - coord a i)) with (u + (v - u) * w) by (unfold w; field; lra).
  split; nra.
Qed.

(** ** Intermediate values *)
Lemma cross vals (k : nat) : forall i t, between (val_at vals i) (val_at vals (i + Z.of_nat k)) t -> (0 < k)%nat ->
  exists j, (i <= j < i + Z.of_nat k)%Z /\ between (val_at vals j) (val_at vals (j + 1)) t.
Proof.
  induction k as [|k IH]; intros i t B Hk; [lia|]. destruct k as [|k].
  - exists i. split; [lia|exact B].
  - replace (i + Z.of_nat (S (S k)))%Z with (i + 1 + Z.of_nat (S k))%Z in B by lia.
    destruct (Rle_dec t (val_at vals (i + 1))) as [T|T]; destruct (Rle_dec t (val_at vals i)) as [T'|T'].
    + destruct B as [B|B]; [exists i; split; [lia|]; unfold between; left; lra|].
      destruct (IH (i + 1)%Z t) as (j & Hj & Bj); [right; lra|lia|]. exists j. split; [lia|exact Bj].
    + exists i. split; [lia|]. unfold between. left. lra.
    + exists i. split; [lia|]. unfold between. right. lra.
    + destruct B as [B|B]; [|lra].
      destruct (IH (i + 1)%Z t) as (j & Hj & Bj); [left; lra|lia|]. exists j. split; [lia|exact Bj].
Qed.
Theorem attains c vals a dom at_ i j t : grid1 c vals a dom at_ -> (0 <= i < j)%Z -> (j < npts a)%Z ->
  between (val_at vals i) (val_at vals j) t ->
  exists x, coord a i <= x <= coord a j /\ dom x /\ linear1 ROps c at_ x = Ok t /\ hold_last1 ROps c at_ x = Ok t.
Proof.
  intros H Hi Hj B. destruct (grid1_sizes _ _ _ _ _ H) as (N & G).
  assert (M : forall i j, (0 <= i)%Z -> (i <= j)%Z -> (j < npts a)%Z -> coord a i <= coord a j).
  { intros p q P L Q. destruct (Z.eq_dec p q) as [->|]; [lra|]. left. apply (proj1 G); lia. }
  destruct (cross vals (Z.to_nat (j - i)) i t) as (k & Hk & Bk).
  { replace (i + Z.of_nat (Z.to_nat (j - i)))%Z with j by lia. exact B. }
  { lia. }
  replace (i + Z.of_nat (Z.to_nat (j - i)))%Z with j in Hk by lia.
  assert (P := gap_pos a k G ltac:(lia)). set (u := val_at vals k) in *. set (v := val_at vals (k + 1)) in *.
  set (w := if Req_EM_T u v then 0 else (t - u) / (v - u)).
  assert (W : 0 <= w <= 1 /\ u + (v - u) * w = t).
  { unfold w. destruct (Req_EM_T u v) as [E|E]; [destruct Bk; lra|].
    assert (Q : u + (v - u) * ((t - u) / (v - u)) = t) by (field; lra). split; [|exact Q].
    set (z := (t - u) / (v - u)) in *. destruct Bk as [Bk|Bk]; split; nra. }
  destruct W as (W & E). set (x := coord a k + w * (coord a (k + 1) - coord a k)).
  assert (X : coord a k <= x <= coord a (k + 1)) by (unfold x; nra).
  assert (K1 := M i k ltac:(lia) ltac:(lia) ltac:(lia)). assert (K2 := M (k + 1)%Z j ltac:(lia) ltac:(lia) ltac:(lia)).
  assert (K3 := M 0%Z i ltac:(lia) ltac:(lia) ltac:(lia)). assert (K4 := M j (npts a - 1)%Z ltac:(lia) ltac:(lia) ltac:(lia)).
  assert (D : dom x) by (eapply dom_inside; [exact H|lra]).
  assert (C : in_cell a x k) by (split; [lia|]; split; right; lra).
  assert (R : linear1 ROps c at_ x = Ok t).
  { rewrite (linear_line _ _ _ _ _ _ _ H D C). f_equal. unfold line. fold u v. rewrite <- E. unfold x. field. lra. }
  exists x. split; [lra|]. split; [exact D|]. split; [exact R|].
  rewrite (@C30_proof_inside _ _ _ _ _ _ H D) by lra. exact R.
Qed.
Theorem slopes_iff c vals a dom at_ m M : grid1 c vals a dom at_ ->
  slopes_between a vals m M <->
  (forall x y, dom x -> dom y -> x <= y -> exists r r', linear1 ROps c at_ x = Ok r /\ linear1 ROps c at_ y = Ok r' /\
     m * (y - x) <= r' - r <= M * (y - x)).
Proof.
  intros H. split; [intros S x y D D' L; exact (slopes_linear _ _ _ _ _ _ _ _ _ H S D D' L)|]. intros K i Hi.
  destruct (grid1_sizes _ _ _ _ _ H) as (N & G). assert (P := gap_pos a i G Hi).
  assert (Q : forall j, (0 <= j < npts a)%Z -> dom (coord a j)).
  { intros j Hj. eapply dom_inside; [exact H|].
    split; [destruct (Z.eq_dec j 0) as [->|]; [lra|left; apply (proj1 G); lia]|].
    destruct (Z.eq_dec j (npts a - 1)) as [->|]; [lra|left; apply (proj1 G); lia]. }
  destruct (K (coord a i) (coord a (i + 1)) (Q i ltac:(lia)) (Q (i + 1)%Z ltac:(lia)) ltac:(lra)) as (r & r' & E & E' & B).
  rewrite (node_value _ _ _ _ _ _ H) in E by lia. rewrite (node_value _ _ _ _ _ _ H) in E' by lia.
  injection E as <-. injection E' as <-. exact B.
Qed.
Theorem strictly_monotone_inverse c vals a dom at_ m M x y t : grid1 c vals a dom at_ -> slopes_between a vals m M -> 0 < m ->
  dom x -> dom y -> linear1 ROps c at_ x = Ok t -> linear1 ROps c at_ y = Ok t -> x = y.
Proof.
  intros H S Hm D D' E E'.
  assert (K : forall x y, dom x -> dom y -> linear1 ROps c at_ x = Ok t -> linear1 ROps c at_ y = Ok t -> x <= y -> x = y).
  { clear x y D D' E E'. intros x y D D' E E' L.
    destruct (slopes_linear _ _ _ _ _ _ _ _ _ H S D D' L) as (r & r' & R & R' & B & _).
    rewrite E in R. rewrite E' in R'. injection R as <-. injection R' as <-. nra. }
  destruct (Rle_dec x y) as [L|L]; [apply K; assumption|symmetry; apply K; auto; lra].
Qed.
