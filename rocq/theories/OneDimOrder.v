(** One dimension, exact arithmetic: monotone data, parts of the grid, finer grids. *)
From Coq Require Import Reals Lra Lia ZArith List.
From Verif Require Import Base Ops RInst ModelOneDim Spec SpecReal SpecSplit Spec1D Spec1DMaps Spec1DShape SpecTotal1D.
From Verif Require Import RChar RProofs3 OneDimProofs OneDimMaps OneDimShape.
Import ListNotations.
Unset Implicit Arguments.
Open Scope R_scope.

(** ** Monotone data *)
Lemma bounded_family (f : Z -> R) (n : nat) : exists M, forall i, (0 <= i < Z.of_nat n)%Z -> f i <= M.
Proof.
  induction n as [|n (M & IH)]; [exists 0; intros i Hi; lia|].
  exists (Rmax M (f (Z.of_nat n))). intros i Hi. destruct (Z.eq_dec i (Z.of_nat n)) as [->|N]; [apply Rmax_r|].
  apply Rle_trans with (2 := Rmax_l _ _). apply IH. lia.
Qed.
Lemma monotone_slopes a vals : good_axis 2 a -> (forall i, (0 <= i <= npts a - 2)%Z -> val_at vals i <= val_at vals (i + 1)) ->
  exists M, slopes_between a vals 0 M.
Proof.
  intros G H. set (f := fun i => (val_at vals (i + 1) - val_at vals i) / (coord a (i + 1) - coord a i)).
  destruct (bounded_family f (Z.to_nat (npts a - 1))) as (M & B). exists M. intros i Hi.
  assert (P := gap_pos a i G Hi). assert (L := H i Hi). split; [lra|].
  assert (Q := B i ltac:(lia)). unfold f in Q.
  apply Rmult_le_compat_r with (r := coord a (i + 1) - coord a i) in Q; [|lra].
  unfold Rdiv in Q. rewrite Rmult_assoc, Rinv_l in Q by lra. lra.
Qed.
Section Monotone.
Variables (c : cfg) (vals : list R) (a : axis) (dom : R -> Prop) (at_ : R -> outcome (grid_sample R)).
Hypothesis H : grid1 c vals a dom at_.
Hypothesis V : forall i, (0 <= i <= npts a - 2)%Z -> val_at vals i <= val_at vals (i + 1).
Lemma vals_le i j : (0 <= i)%Z -> (i <= j)%Z -> (j < npts a)%Z -> val_at vals i <= val_at vals j.
Proof using All.
  intros Hi L Hj. assert (K : forall n : nat, (i + Z.of_nat n < npts a)%Z -> val_at vals i <= val_at vals (i + Z.of_nat n)).
  { induction n as [|n IH]; intros Hn; [rewrite Z.add_0_r; lra|]. apply Rle_trans with (1 := IH ltac:(lia)).
    replace (i + Z.of_nat (S n))%Z with (i + Z.of_nat n + 1)%Z by lia. apply V. lia. }
  specialize (K (Z.to_nat (j - i))). replace (i + Z.of_nat (Z.to_nat (j - i)))%Z with j in K by lia. apply K. exact Hj.
Qed.
Lemma cells_le x y i j : in_cell a x i -> in_cell a y j -> x < y -> (i <= j)%Z.
Proof using All.
  destruct (grid1_sizes _ _ _ _ _ H) as (N & G).
  intros (Ri & Lx & Ux) (Rj & Ly & Uy) L. destruct (Z_le_gt_dec i j) as [|Q]; [assumption|]. exfalso.
  destruct Lx as [E|Lx]; [lia|]. destruct Uy as [E|Uy]; [lia|].
  assert (D : coord a (j + 1) <= coord a i).
  { destruct (Z.eq_dec (j + 1) i) as [->|]; [lra|]. left. apply (proj1 G); lia. }
  lra.
Qed.
Theorem monotone_methods ev x y : method_1d ROps c at_ ev -> dom x -> dom y -> x <= y ->
  exists r r', ev x = Ok r /\ ev y = Ok r' /\ r <= r'.
Proof using All.
  intros Hm D D' L. destruct (grid1_sizes _ _ _ _ _ H) as (N & G). assert (G2 := proj2 G).
  destruct (monotone_slopes a vals G V) as (M & S). destruct (coord_ends G) as (_ & _ & Ends).
  destruct Hm.
  - destruct (slopes_linear _ _ _ _ _ _ _ _ _ H S D D' L) as (r & r' & E & E' & B & _). exists r, r'. repeat split; auto. lra.
  - destruct (slopes_hold _ _ _ _ _ _ _ _ _ H S D D' L) as (r & r' & E & E' & B & _). exists r, r'. repeat split; auto. lra.
  - destruct (grid1_at _ H D) as (_ & _ & i & e & A & C & X). destruct (grid1_at _ H D') as (_ & _ & j & e' & A' & C' & X').
    unfold left1. rewrite A, A'. cbn [bind sextrap sy0 sy1]. eexists _, _. split; [reflexivity|]. split; [reflexivity|].
    destruct (Req_dec x y) as [->|Ne].
    { rewrite A in A'. injection A' as E0 E1 E2 E3 E4. subst e'. destruct e; lra. }
    assert (Q := cells_le x y i j C C' ltac:(lra)). assert (Ri := proj1 C). assert (Rj := proj1 C').
    destruct e; destruct e'; cbn [extrap_R] in X, X'; try (apply vals_le; lia); try lra.
  - destruct (grid1_at _ H D) as (_ & _ & i & e & A & C & X). destruct (grid1_at _ H D') as (_ & _ & j & e' & A' & C' & X').
    unfold right1. rewrite A, A'. cbn [bind sextrap sy0 sy1]. eexists _, _. split; [reflexivity|]. split; [reflexivity|].
    destruct (Req_dec x y) as [->|Ne].
    { rewrite A in A'. injection A' as E0 E1 E2 E3 E4. subst e'. destruct e; lra. }
    assert (Q := cells_le x y i j C C' ltac:(lra)). assert (Ri := proj1 C). assert (Rj := proj1 C').
    destruct e; destruct e'; cbn [extrap_R] in X, X'; try (apply vals_le; lia); try lra.
  - destruct (find_cell _ _ _ _ _ _ H D) as (_ & _ & i & C). assert (K := nearest_1d G C).
    destruct (find_cell _ _ _ _ _ _ H D') as (_ & _ & j & C'). assert (K' := nearest_1d G C').
    set (p := (i + _)%Z) in K. set (q := (j + _)%Z) in K'. clearbody p q.
    exists (val_at vals p), (val_at vals q). split; [apply (C31_proof_nearest H D K)|]. split; [apply (C31_proof_nearest H D' K')|].
    destruct K as (Rp & Kp). destruct K' as (Rq & Kq).
    destruct (Z_le_gt_dec p q) as [Q|Q]; [apply vals_le; lia|].
    destruct (Req_dec x y) as [->|Ne].
    { exfalso. destruct (Kp q Rq) as (P1 & P2). destruct (Kq p Rp) as (Q1 & Q2).
      assert (E : Rabs (y - coord a p) = Rabs (y - coord a q)) by (apply Rle_antisym; assumption).
      assert (P3 := P2 ltac:(auto)). lia. }
    exfalso. assert (Gq : coord a q < coord a p) by (apply (proj1 G); lia).
    assert (P1 := proj1 (Kp q Rq)). assert (Q1 := proj1 (Kq p Rp)).
    unfold Rabs in P1, Q1. destruct (Rcase_abs (x - coord a p)), (Rcase_abs (x - coord a q)), (Rcase_abs (y - coord a p)), (Rcase_abs (y - coord a q)); lra.
Qed.
End Monotone.

(** ** Parts of the grid *)
Section Crop.
Variables (lo : Z) (a b : axis) (c c' : cfg) (vals vals' : list R) (dom dom' : R -> Prop) (at_ at_' : R -> outcome (grid_sample R)) (x : R).
Hypothesis Cr : crop_axis lo a b.
Hypothesis Hv : forall j, (0 <= j < npts b)%Z -> val_at vals' j = val_at vals (lo + j).
Hypothesis Ha : grid1 c vals a dom at_.
Hypothesis Hb : grid1 c' vals' b dom' at_'.
Hypothesis I0 : lo = 0%Z \/ coord b 0 <= x.
Hypothesis I1 : (lo + npts b)%Z = npts a \/ x <= coord b (npts b - 1).
Hypothesis D : dom x.
Hypothesis D' : dom' x.
Let sizes : npts a = zlen vals /\ good_axis 2 a.
Proof. exact (grid1_sizes _ _ _ _ _ Ha). Qed.
Let sizes' : npts b = zlen vals' /\ good_axis 2 b.
Proof. exact (grid1_sizes _ _ _ _ _ Hb). Qed.
Lemma crop_cell j : in_cell b x j -> in_cell a x (lo + j).
Proof using All.
  destruct Cr as (L0 & Ln & Cc). intros (R & L & U). split; [lia|]. split.
  - destruct L as [->|L]; [|right; rewrite <- Cc by lia; exact L].
    destruct I0 as [E|E]; [left; lia|right; rewrite <- Cc by lia; exact E].
  - destruct U as [->|U].
    + destruct I1 as [E|E]; [left; lia|right]. rewrite <- Z.add_assoc, <- Cc by lia.
      replace (npts b - 2 + 1)%Z with (npts b - 1)%Z by lia. exact E.
    + right. rewrite <- Z.add_assoc, <- Cc by lia. exact U.
Qed.
Lemma crop_below : x < coord a 0 -> lo = 0%Z /\ x < coord b 0.
Proof using All.
  destruct Cr as (L0 & Ln & Cc). assert (B := proj2 (proj2 sizes')). intros Q.
  assert (E := Cc 0%Z ltac:(lia)). rewrite Z.add_0_r in E.
  destruct (Z.eq_dec lo 0) as [Z0|Z0]; [split; [exact Z0|rewrite E, Z0; exact Q]|]. exfalso.
  destruct I0 as [I|I]; [contradiction|]. assert (coord a 0 < coord a lo) by (apply (proj1 (proj2 sizes)); lia). lra.
Qed.
Lemma crop_above : coord a (npts a - 1) < x -> (lo + npts b)%Z = npts a /\ coord b (npts b - 1) < x.
Proof using All.
  destruct Cr as (L0 & Ln & Cc). assert (B := proj2 (proj2 sizes')). intros Q.
  assert (E := Cc (npts b - 1)%Z ltac:(lia)).
  destruct (Z.eq_dec (lo + npts b) (npts a)) as [Z0|Z0].
  { split; [exact Z0|]. rewrite E. replace (lo + (npts b - 1))%Z with (npts a - 1)%Z by lia. exact Q. }
  exfalso. destruct I1 as [I|I]; [contradiction|].
  assert (coord a (lo + (npts b - 1)) < coord a (npts a - 1)) by (apply (proj1 (proj2 sizes)); lia). lra.
Qed.
Lemma crop_linear : linear1 ROps c' at_' x = linear1 ROps c at_ x.
Proof using All.
  destruct (find_cell _ _ _ _ _ _ Hb D') as (_ & _ & j & C). assert (R := proj1 C).
  rewrite (linear_line _ _ _ _ _ _ j Hb D' C), (linear_line _ _ _ _ _ _ _ Ha D (crop_cell j C)).
  destruct Cr as (L0 & Ln & Cc). f_equal. unfold line. rewrite !Hv, !Cc, !Z.add_assoc by lia. reflexivity.
Qed.
Lemma crop_hold : hold_last1 ROps c' at_' x = hold_last1 ROps c at_ x.
Proof using All.
  assert (B := proj2 (proj2 sizes')). assert (Nb := proj1 sizes'). assert (Na := proj1 sizes).
  destruct Cr as (L0 & Ln & Cc). assert (B0 := Cc 0%Z ltac:(lia)). assert (Bn := Cc (npts b - 1)%Z ltac:(lia)). rewrite Z.add_0_r in B0.
  destruct (Rlt_le_dec x (coord b 0)) as [Q|Q].
  { assert (Z0 : lo = 0%Z) by (destruct I0; [assumption|lra]). rewrite Z0 in B0.
    rewrite (proj1 (C30_proof_outside x Hb D') Q). rewrite (proj1 (C30_proof_outside x Ha D)) by lra. rewrite Hv by lia. rewrite Z0. reflexivity. }
  destruct (Rlt_le_dec (coord b (npts b - 1)) x) as [U|U].
  { assert (Z0 : (lo + npts b)%Z = npts a) by (destruct I1; [assumption|lra]).
    replace (lo + (npts b - 1))%Z with (npts a - 1)%Z in Bn by lia.
    rewrite (proj2 (C30_proof_outside x Hb D') U). rewrite (proj2 (C30_proof_outside x Ha D)) by lra.
    rewrite <- Nb, Hv by lia. do 2 f_equal. lia. }
  rewrite (C30_proof_inside Hb D') by lra. rewrite (C30_proof_inside Ha D); [apply crop_linear|].
  split.
  - destruct (Rle_dec (coord a 0) x) as [|W]; [assumption|]. exfalso. destruct crop_below as (_ & W'); lra.
  - destruct (Rle_dec x (coord a (npts a - 1))) as [|W]; [assumption|]. exfalso. destruct crop_above as (_ & W'); lra.
Qed.
Lemma crop_nearest : nearest1 ROps at_' x = nearest1 ROps at_ x.
Proof using All.
  destruct (find_cell _ _ _ _ _ _ Hb D') as (_ & G & j & C). assert (R := proj1 C).
  assert (K := nearest_1d G C). assert (K' := nearest_1d (proj2 sizes) (crop_cell j C)).
  rewrite (C31_proof_nearest Hb D' K), (C31_proof_nearest Ha D K').
  destruct Cr as (L0 & Ln & Cc). rewrite !Cc, !Z.add_assoc by lia. f_equal.
  rewrite Hv; [rewrite Z.add_assoc; reflexivity|]. match goal with |- context [if ?r then _ else _] => destruct r end; lia.
Qed.
Lemma crop_steps : off_nodes a x -> left1 at_' x = left1 at_ x /\ right1 at_' x = right1 at_ x.
Proof using All.
  intros O. assert (B := proj2 (proj2 sizes')). assert (Nb := proj1 sizes'). assert (Na := proj1 sizes).
  destruct (find_cell _ _ _ _ _ _ Hb D') as (_ & G & j & C). assert (R := proj1 C).
  destruct (off_cases a x _ (proj2 sizes) (crop_cell j C) O) as [L|[U|M]].
  - destruct (crop_below L) as (Z0 & L'). destruct (proj1 (C31_proof_outside x Ha D) L) as (-> & -> & _).
    destruct (proj1 (C31_proof_outside x Hb D') L') as (-> & -> & _). rewrite Hv, Z0 by lia. split; reflexivity.
  - destruct (crop_above U) as (Z0 & U'). destruct (proj2 (C31_proof_outside x Ha D) U) as (-> & -> & _).
    destruct (proj2 (C31_proof_outside x Hb D') U') as (-> & -> & _). rewrite <- Nb, Hv by lia.
    replace (lo + (npts b - 1))%Z with (zlen vals - 1)%Z by lia. split; reflexivity.
  - destruct Cr as (L0 & Ln & Cc).
    destruct (@C31_proof_between _ _ _ _ _ _ (lo + j)%Z Ha D) as (-> & ->); [lia|exact M|].
    rewrite <- Z.add_assoc in M. rewrite <- !Cc in M by lia.
    destruct (@C31_proof_between _ _ _ _ _ _ j Hb D' R M) as (-> & ->). rewrite !Hv by lia. rewrite Z.add_assoc. split; reflexivity.
Qed.
End Crop.
Theorem crop_one_dim lo a b c c' vals vals' dom dom' at_ at_' x : crop_axis lo a b ->
  (forall j, (0 <= j < npts b)%Z -> val_at vals' j = val_at vals (lo + j)) ->
  grid1 c vals a dom at_ -> grid1 c' vals' b dom' at_' ->
  lo = 0%Z \/ coord b 0 <= x -> (lo + npts b)%Z = npts a \/ x <= coord b (npts b - 1) -> dom x -> dom' x ->
  linear1 ROps c' at_' x = linear1 ROps c at_ x /\ hold_last1 ROps c' at_' x = hold_last1 ROps c at_ x /\
  nearest1 ROps at_' x = nearest1 ROps at_ x /\
  (off_nodes a x -> left1 at_' x = left1 at_ x /\ right1 at_' x = right1 at_ x).
Proof.
  intros. split; [eapply crop_linear; eauto|]. split; [eapply crop_hold; eauto|]. split; [eapply crop_nearest; eauto|].
  eapply crop_steps; eauto.
Qed.

(** ** Finer grids *)
Lemma some_cell a x : good_axis 2 a -> exists i, in_cell a x i.
Proof.
  intros (G & Hn).
  assert (K : forall n : nat, (Z.of_nat n <= npts a - 2)%Z ->
    (exists i, in_cell a x i) \/ (Z.of_nat n = 0%Z \/ coord a (Z.of_nat n) <= x)).
  { induction n as [|n IH]; intros Hn'; [right; left; reflexivity|].
    destruct (IH ltac:(lia)) as [E|E]; [left; exact E|].
    destruct (Rle_dec (coord a (Z.of_nat (S n))) x) as [Q|Q]; [right; right; exact Q|].
    left. exists (Z.of_nat n). split; [lia|]. split; [exact E|]. right.
    replace (Z.of_nat n + 1)%Z with (Z.of_nat (S n)) by lia. lra. }
  destruct (K (Z.to_nat (npts a - 2)) ltac:(lia)) as [E|E]; [exact E|].
  exists (npts a - 2)%Z. rewrite Z2Nat.id in E by lia. split; [lia|]. split; [exact E|left; reflexivity].
Qed.
Lemma coarse_cell a b j : good_axis 2 a -> good_axis 2 b -> refines a b -> (0 <= j <= npts b - 2)%Z ->
  exists i, (0 <= i <= npts a - 2)%Z /\ in_cell a (coord b j) i /\ in_cell a (coord b (j + 1)) i /\ forall x, in_cell b x j -> in_cell a x i.
Proof.
  intros Ga Gb Rf Hj. assert (P := gap_pos b j Gb Hj).
  destruct (some_cell a ((coord b j + coord b (j + 1)) / 2) Ga) as (i & R & L & U). exists i. split; [exact R|].
  assert (X : forall k l, (0 <= k < npts b)%Z -> (0 <= l < npts b)%Z -> coord b k < coord b l -> (k < l)%Z).
  { intros k l Hk Hl Q. destruct (Z.lt_trichotomy k l) as [|[->|W]]; [assumption|lra|].
    assert (coord b l < coord b k) by (apply (proj1 Gb); lia). lra. }
  assert (Lo : i = 0%Z \/ ((0 < j)%Z /\ coord a i <= coord b j)).
  { destruct (Z.eq_dec i 0) as [|N]; [left; assumption|right]. destruct L as [L|L]; [contradiction|].
    destruct (Rf i ltac:(lia)) as (k & Hk & E). rewrite <- E in *.
    assert (Q := X k (j + 1)%Z ltac:(lia) ltac:(lia) ltac:(lra)). split; [lia|].
    destruct (Z.eq_dec k j) as [->|]; [lra|]. left. apply (proj1 Gb); lia. }
  assert (Up : i = (npts a - 2)%Z \/ ((j < npts b - 2)%Z /\ coord b (j + 1) <= coord a (i + 1))).
  { destruct (Z.eq_dec i (npts a - 2)) as [|N]; [left; assumption|right]. destruct U as [U|U]; [contradiction|].
    destruct (Rf (i + 1)%Z ltac:(lia)) as (k & Hk & E). rewrite <- E in *.
    assert (Q := X j k ltac:(lia) ltac:(lia) ltac:(lra)). split; [lia|].
    destruct (Z.eq_dec k (j + 1)) as [->|]; [lra|]. left. apply (proj1 Gb); lia. }
  split; [|split].
  - split; [exact R|]. split; [destruct Lo as [Lo|(_ & Lo)]; [left; exact Lo|right; exact Lo]|destruct Up as [Up|(_ & Up)]; [left; exact Up|right; lra]].
  - split; [exact R|]. split; [destruct Lo as [Lo|(_ & Lo)]; [left; exact Lo|right; lra]|destruct Up as [Up|(_ & Up)]; [left; exact Up|right; lra]].
  - intros x (_ & Lx & Ux). split; [exact R|]. split.
    + destruct Lo as [Lo|(J & Lo)]; [left; exact Lo|right]. destruct Lx as [Lx|Lx]; [lia|lra].
    + destruct Up as [Up|(J & Up)]; [left; exact Up|right]. destruct Ux as [Ux|Ux]; [lia|lra].
Qed.
Theorem refine_one_dim a b c c' vals vals' dom dom' at_ at_' x : refines a b -> grid1 c vals a dom at_ -> grid1 c' vals' b dom' at_' ->
  (forall j, (0 <= j < npts b)%Z -> dom (coord b j) /\ linear1 ROps c at_ (coord b j) = Ok (val_at vals' j)) ->
  dom x -> dom' x ->
  linear1 ROps c' at_' x = linear1 ROps c at_ x /\
  (coord b 0 = coord a 0 -> coord b (npts b - 1) = coord a (npts a - 1) -> hold_last1 ROps c' at_' x = hold_last1 ROps c at_ x).
Proof.
  intros Rf Ha Hb Hv D D'. destruct (grid1_sizes _ _ _ _ _ Ha) as (Na & Ga). destruct (grid1_sizes _ _ _ _ _ Hb) as (Nb & Gb).
  assert (K : forall y, dom y -> dom' y -> linear1 ROps c' at_' y = linear1 ROps c at_ y).
  { intros y Dy Dy'. destruct (find_cell _ _ _ _ _ _ Hb Dy') as (_ & _ & j & C). assert (R := proj1 C).
    destruct (coarse_cell a b j Ga Gb Rf R) as (i & Ri & C0 & C1 & Cx).
    rewrite (linear_line _ _ _ _ _ _ j Hb Dy' C), (linear_line _ _ _ _ _ _ i Ha Dy (Cx y C)).
    destruct (Hv j ltac:(lia)) as (D0 & E0). destruct (Hv (j + 1)%Z ltac:(lia)) as (D1 & E1).
    rewrite (linear_line _ _ _ _ _ _ i Ha D0 C0) in E0. rewrite (linear_line _ _ _ _ _ _ i Ha D1 C1) in E1.
    injection E0 as E0. injection E1 as E1. f_equal. unfold line at 1. rewrite <- E0, <- E1.
    assert (P := gap_pos b j Gb R). assert (Q := gap_pos a i Ga Ri). unfold line. field. split; lra. }
  split; [apply K; assumption|]. intros E0 En.
  destruct (hold_is_clamped _ _ _ _ _ _ Ha D) as (Dc & ->). destruct (hold_is_clamped _ _ _ _ _ _ Hb D') as (Dc' & ->).
  assert (E : clamp b x = clamp a x) by (unfold clamp; rewrite E0, En; reflexivity). rewrite E in Dc' |- *. apply K; assumption.
Qed.
