(** One-dimensional interpolation under changes of the axis and of the data, in exact arithmetic. *)
From Coq Require Import Reals Lra Lia ZArith List Psatz.
From Verif Require Import Base Ops RInst ModelOneDim Spec SpecReal Spec1D Spec1DMaps.
From Verif Require Import RChar RProofs3 OneDimProofs.
Import ListNotations.
Unset Implicit Arguments.
Open Scope R_scope.

(** The line through the ends of cell [i]. *)
Definition line (a : axis) (vals : list R) (x : R) (i : Z) : R :=
  val_at vals i + (val_at vals (i + 1) - val_at vals i) / (coord a (i + 1) - coord a i) * (x - coord a i).

Lemma gap_pos a i : good_axis 2 a -> (0 <= i <= npts a - 2)%Z -> 0 < coord a (i + 1) - coord a i.
Proof. intros (G & _) Hi. assert (coord a i < coord a (i + 1)) by (apply G; lia). lra. Qed.
Lemma cells_apart a x i j : good_axis 2 a -> in_cell a x i -> in_cell a x j -> (i < j)%Z -> j = (i + 1)%Z /\ x = coord a j.
Proof.
  intros (G & Hn) (Ri & _ & Ui) (Rj & Lj & _) L.
  destruct Ui as [E|Ui]; [lia|]. destruct Lj as [E|Lj]; [lia|].
  destruct (Z.eq_dec j (i + 1)) as [->|N]; [split; [reflexivity|lra]|].
  assert (coord a (i + 1) < coord a j) by (apply G; lia). lra.
Qed.
Lemma line_cells a vals x i j : good_axis 2 a -> in_cell a x i -> in_cell a x j -> line a vals x i = line a vals x j.
Proof.
  intros G Ci Cj.
  assert (K : forall i j, in_cell a x i -> in_cell a x j -> (i < j)%Z -> line a vals x i = line a vals x j).
  { clear i j Ci Cj. intros i j Ci Cj L. destruct (cells_apart a x i j G Ci Cj L) as (-> & ->).
    assert (P := gap_pos a i G (proj1 Ci)). assert (P' := gap_pos a (i + 1) G (proj1 Cj)). unfold line. field. lra. }
  destruct (Z.lt_trichotomy i j) as [L|[->|L]]; [apply K; auto|reflexivity|symmetry; apply K; auto].
Qed.
Lemma linear_line c vals a dom at_ x i : grid1 c vals a dom at_ -> dom x -> in_cell a x i -> linear1 ROps c at_ x = Ok (line a vals x i).
Proof.
  intros H D C. destruct (grid1_at _ H D) as (N & G & j & e & A & Cj & X).
  unfold linear1. rewrite A. cbn [bind]. f_equal. rewrite (line_cells a vals x i j G C Cj).
  unfold line_through, line. cbn [sx0 sy0 sx1 sy1]. destruct (use_fma c); simpl; ring.
Qed.
Lemma find_cell c vals a dom at_ x : grid1 c vals a dom at_ -> dom x ->
  npts a = zlen vals /\ good_axis 2 a /\ exists i, in_cell a x i.
Proof. intros H D. destruct (grid1_at _ H D) as (N & G & j & e & A & Cj & X). eauto. Qed.

(** Where an observation off the grid points lies. *)
Lemma off_cases a x i : good_axis 2 a -> in_cell a x i -> off_nodes a x ->
  x < coord a 0 \/ coord a (npts a - 1) < x \/ coord a i < x < coord a (i + 1).
Proof.
  intros (G & Hn) (R & L & U) O. assert (O0 := O i ltac:(lia)). assert (O1 := O (i + 1)%Z ltac:(lia)).
  destruct (Rlt_le_dec x (coord a i)) as [H|H].
  - destruct L as [->|L]; [left; exact H|lra].
  - destruct (Rlt_le_dec (coord a (i + 1)) x) as [H'|H'].
    + destruct U as [->|U]; [|lra]. right. left. replace (npts a - 1)%Z with (npts a - 2 + 1)%Z by lia. exact H'.
    + right. right. lra.
Qed.

(** ** Rescaled axes *)
Section Rescaled.
Variables (s t : R) (a b : axis).
Hypothesis Rab : rescaled_axis (s, t) a b.
Let s0 : 0 < s.
Proof. exact (proj1 Rab). Qed.
Let nb : npts b = npts a.
Proof. exact (proj1 (proj2 Rab)). Qed.
Let cb i : (0 <= i < npts a)%Z -> coord b i = s * coord a i + t.
Proof. exact (proj2 (proj2 Rab) i). Qed.
Lemma rescale_cell x i : in_cell a x i -> in_cell b (s * x + t) i.
Proof using Rab s0 nb cb.
  intros (R & L & U). split; [rewrite nb; lia|]. split.
  - destruct L as [L|L]; [left; exact L|right]. rewrite cb by lia. nra.
  - rewrite nb. destruct U as [U|U]; [left; exact U|right]. rewrite cb by lia. nra.
Qed.
Lemma rescale_line vals x i : good_axis 2 a -> (0 <= i <= npts a - 2)%Z -> line b vals (s * x + t) i = line a vals x i.
Proof using Rab s0 nb cb.
  intros G R. assert (P := gap_pos a i G R). unfold line. rewrite !cb by lia. field. split; [lra|].
  replace (s * coord a (i + 1) + t - (s * coord a i + t)) with (s * (coord a (i + 1) - coord a i)) by ring. nra.
Qed.
Lemma rescale_nearest x i : nearest_node a x i -> nearest_node b (s * x + t) i.
Proof using Rab s0 nb cb.
  intros (R & H). split; [rewrite nb; exact R|]. intros j Hj. rewrite nb in Hj. destruct (H j Hj) as (H1 & H2). rewrite !cb by lia.
  assert (E : forall u, Rabs (s * x + t - (s * u + t)) = s * Rabs (x - u)).
  { intros u. replace (s * x + t - (s * u + t)) with (s * (x - u)) by ring. rewrite Rabs_mult, (Rabs_pos_eq s) by lra. reflexivity. }
  rewrite !E. split; [apply Rmult_le_compat_l; lra|]. intros Q. apply H2. apply Rmult_eq_reg_l with s; lra.
Qed.
Variables (c c' : cfg) (vals : list R) (dom dom' : R -> Prop) (at_ at_' : R -> outcome (grid_sample R)) (x : R).
Hypothesis Ha : grid1 c vals a dom at_.
Hypothesis Hb : grid1 c' vals b dom' at_'.
Hypothesis Dx : dom x.
Hypothesis Dx' : dom' (s * x + t).
Lemma rescale_linear : linear1 ROps c' at_' (s * x + t) = linear1 ROps c at_ x.
Proof using All.
  destruct (find_cell _ _ _ _ _ _ Ha Dx) as (N & G & i & C).
  rewrite (linear_line _ _ _ _ _ _ i Ha Dx C), (linear_line _ _ _ _ _ _ i Hb Dx' (rescale_cell x i C)).
  f_equal. apply rescale_line; [exact G|exact (proj1 C)].
Qed.
Lemma rescale_hold : hold_last1 ROps c' at_' (s * x + t) = hold_last1 ROps c at_ x.
Proof using All.
  destruct (find_cell _ _ _ _ _ _ Ha Dx) as (N & (G & Hn) & i & C).
  assert (B0 := cb 0 ltac:(lia)). assert (Bn := cb (npts a - 1) ltac:(lia)). rewrite <- nb in Bn at 1.
  destruct (Rlt_le_dec x (coord a 0)) as [L|L].
  { rewrite (proj1 (C30_proof_outside x Ha Dx) L). apply (C30_proof_outside (s * x + t) Hb Dx'). rewrite B0. nra. }
  destruct (Rlt_le_dec (coord a (npts a - 1)) x) as [U|U].
  { rewrite (proj2 (C30_proof_outside x Ha Dx) U). apply (C30_proof_outside (s * x + t) Hb Dx'). rewrite Bn. nra. }
  rewrite (C30_proof_inside Ha Dx) by lra. rewrite (C30_proof_inside Hb Dx') by (rewrite B0, Bn; split; nra). apply rescale_linear.
Qed.
Lemma rescale_nearest1 : nearest1 ROps at_' (s * x + t) = nearest1 ROps at_ x.
Proof using All.
  destruct (find_cell _ _ _ _ _ _ Ha Dx) as (N & G & i & C). assert (K := nearest_1d G C).
  rewrite (C31_proof_nearest Ha Dx K), (C31_proof_nearest Hb Dx' (rescale_nearest _ _ K)). reflexivity.
Qed.
Lemma rescale_steps : off_nodes a x -> left1 at_' (s * x + t) = left1 at_ x /\ right1 at_' (s * x + t) = right1 at_ x.
Proof using All.
  intros O. destruct (find_cell _ _ _ _ _ _ Ha Dx) as (N & G & i & C). assert (Hn := proj2 G). assert (R := proj1 C).
  assert (B0 := cb 0 ltac:(lia)). assert (Bn := cb (npts a - 1) ltac:(lia)). rewrite <- nb in Bn at 1.
  destruct (off_cases a x i G C O) as [L|[U|M]].
  - destruct (proj1 (C31_proof_outside x Ha Dx) L) as (-> & -> & _).
    destruct (proj1 (C31_proof_outside (s * x + t) Hb Dx')) as (-> & -> & _); [rewrite B0; nra|]. split; reflexivity.
  - destruct (proj2 (C31_proof_outside x Ha Dx) U) as (-> & -> & _).
    destruct (proj2 (C31_proof_outside (s * x + t) Hb Dx')) as (-> & -> & _); [rewrite Bn; nra|]. split; reflexivity.
  - destruct (C31_proof_between Ha Dx R M) as (-> & ->).
    destruct (@C31_proof_between _ _ _ _ _ _ i Hb Dx') as (-> & ->); [rewrite nb; exact R|rewrite !cb by lia; split; nra|split; reflexivity].
Qed.
End Rescaled.

(** ** Reflected axes *)
Lemma val_rev vals i : (0 <= i < zlen vals)%Z -> val_at (rev vals) i = val_at vals (zlen vals - 1 - i).
Proof.
  intros H. unfold val_at, zlen in *. rewrite rev_nth by lia. f_equal. lia.
Qed.
Section Reflected.
Variables (a b : axis).
Hypothesis Rab : reflected_axis a b.
Let nb : npts b = npts a.
Proof. exact (proj1 Rab). Qed.
Let cb i : (0 <= i < npts a)%Z -> coord b i = - coord a (npts a - 1 - i).
Proof. exact (proj2 Rab i). Qed.
Lemma reflect_cell x i : in_cell a x i -> in_cell b (- x) (npts a - 2 - i).
Proof using Rab nb cb.
  intros (R & L & U). split; [rewrite nb; lia|]. split.
  - destruct U as [U|U]; [left; lia|right]. rewrite cb by lia. replace (npts a - 1 - (npts a - 2 - i))%Z with (i + 1)%Z by lia. lra.
  - rewrite nb. destruct L as [L|L]; [left; lia|right]. rewrite cb by lia. replace (npts a - 1 - (npts a - 2 - i + 1))%Z with i by lia. lra.
Qed.
Variables (c c' : cfg) (vals : list R) (dom dom' : R -> Prop) (at_ at_' : R -> outcome (grid_sample R)) (x : R).
Hypothesis Ha : grid1 c vals a dom at_.
Hypothesis Hb : grid1 c' (rev vals) b dom' at_'.
Hypothesis Dx : dom x.
Hypothesis Dx' : dom' (- x).
Lemma reflect_linear : linear1 ROps c' at_' (- x) = linear1 ROps c at_ x.
Proof using All.
  destruct (find_cell _ _ _ _ _ _ Ha Dx) as (N & G & i & C). assert (R := proj1 C).
  rewrite (linear_line _ _ _ _ _ _ i Ha Dx C), (linear_line _ _ _ _ _ _ _ Hb Dx' (reflect_cell x i C)).
  f_equal. assert (P := gap_pos a i G R). unfold line. rewrite !cb, !val_rev by lia. rewrite <- N.
  replace (npts a - 1 - (npts a - 2 - i))%Z with (i + 1)%Z by lia.
  replace (npts a - 1 - (npts a - 2 - i + 1))%Z with i by lia. field. lra.
Qed.
Lemma ends : coord b 0 = - coord a (npts a - 1) /\ coord b (npts b - 1) = - coord a 0 /\
  val_at (rev vals) 0 = val_at vals (zlen vals - 1) /\ val_at (rev vals) (zlen (rev vals) - 1) = val_at vals 0.
Proof using All.
  destruct (find_cell _ _ _ _ _ _ Ha Dx) as (N & (G & Hn) & i & C).
  assert (Lr : zlen (rev vals) = zlen vals) by (unfold zlen; rewrite rev_length; reflexivity).
  rewrite Lr, nb, !cb, !val_rev by lia. rewrite N, Z.sub_0_r, Z.sub_diag. repeat split.
Qed.
Lemma reflect_hold : hold_last1 ROps c' at_' (- x) = hold_last1 ROps c at_ x.
Proof using All.
  destruct ends as (B0 & Bn & V0 & Vn).
  destruct (Rlt_le_dec x (coord a 0)) as [L|L].
  { rewrite (proj1 (C30_proof_outside x Ha Dx) L), <- Vn. apply (C30_proof_outside (- x) Hb Dx'). rewrite Bn. lra. }
  destruct (Rlt_le_dec (coord a (npts a - 1)) x) as [U|U].
  { rewrite (proj2 (C30_proof_outside x Ha Dx) U), <- V0. apply (C30_proof_outside (- x) Hb Dx'). rewrite B0. lra. }
  rewrite (C30_proof_inside Ha Dx) by lra. rewrite (C30_proof_inside Hb Dx') by (rewrite B0, Bn; split; lra). apply reflect_linear.
Qed.
Lemma reflect_steps : off_nodes a x -> left1 at_' (- x) = right1 at_ x /\ right1 at_' (- x) = left1 at_ x.
Proof using All.
  intros O. destruct (find_cell _ _ _ _ _ _ Ha Dx) as (N & G & i & C). assert (Hn := proj2 G). assert (R := proj1 C).
  destruct ends as (B0 & Bn & V0 & Vn).
  destruct (off_cases a x i G C O) as [L|[U|M]].
  - destruct (proj1 (C31_proof_outside x Ha Dx) L) as (-> & -> & _). rewrite <- Vn.
    destruct (proj2 (C31_proof_outside (- x) Hb Dx')) as (-> & -> & _); [rewrite Bn; lra|]. split; reflexivity.
  - destruct (proj2 (C31_proof_outside x Ha Dx) U) as (-> & -> & _). rewrite <- V0.
    destruct (proj1 (C31_proof_outside (- x) Hb Dx')) as (-> & -> & _); [rewrite B0; lra|]. split; reflexivity.
  - destruct (C31_proof_between Ha Dx R M) as (-> & ->).
    destruct (@C31_proof_between _ _ _ _ _ _ (npts a - 2 - i)%Z Hb Dx') as (-> & ->).
    + rewrite nb. lia.
    + rewrite !cb by lia. replace (npts a - 1 - (npts a - 2 - i))%Z with (i + 1)%Z by lia.
      replace (npts a - 1 - (npts a - 2 - i + 1))%Z with i by lia. lra.
    + rewrite !val_rev by lia. rewrite <- N. replace (npts a - 1 - (npts a - 2 - i))%Z with (i + 1)%Z by lia.
      replace (npts a - 1 - (npts a - 2 - i + 1))%Z with i by lia. split; reflexivity.
Qed.
Lemma reflect_nearest : no_tie a x -> nearest1 ROps at_' (- x) = nearest1 ROps at_ x.
Proof using All.
  intros T. destruct (find_cell _ _ _ _ _ _ Ha Dx) as (N & G & j & C). assert (K := nearest_1d G C).
  set (i := (j + _)%Z) in K. clearbody i. rewrite (C31_proof_nearest Ha Dx K).
  destruct K as (R & H). assert (Ga := proj1 G).
  assert (K' : nearest_node b (- x) (npts a - 1 - i)).
  { split; [rewrite nb; lia|]. intros k Hk. rewrite nb in Hk. rewrite !cb by lia.
    replace (npts a - 1 - (npts a - 1 - i))%Z with i by lia. set (k' := (npts a - 1 - k)%Z).
    destruct (H k' ltac:(lia)) as (H1 & H2).
    replace (- x - - coord a i) with (- (x - coord a i)) by ring. replace (- x - - coord a k') with (- (x - coord a k')) by ring.
    rewrite !Rabs_Ropp. split; [exact H1|]. intros Q. specialize (H2 Q).
    destruct (Z.eq_dec k' i) as [E|E]; [lia|]. exfalso.
    (* i < k' at the same distance: x is halfway, and i and k' are neighbours *)
    assert (Gk : coord a i < coord a k') by (apply Ga; lia).
    assert (X2 : 2 * x = coord a i + coord a k') by (unfold Rabs in Q; destruct (Rcase_abs _), (Rcase_abs _); lra).
    destruct (Z.eq_dec k' (i + 1)) as [E1|E1]; [apply (T i ltac:(lia)); rewrite <- E1; exact X2|].
    destruct (H (i + 1)%Z ltac:(lia)) as (H3 & _).
    assert (coord a i < coord a (i + 1)) by (apply Ga; lia). assert (coord a (i + 1) < coord a k') by (apply Ga; lia).
    unfold Rabs in H3. destruct (Rcase_abs _), (Rcase_abs _); lra. }
  rewrite (C31_proof_nearest Hb Dx' K'). f_equal. rewrite val_rev by lia. f_equal. lia.
Qed.
End Reflected.

(** ** Combinations of data *)
Section Combined.
Variables (p q : R) (u v w : list R) (a : axis) (c c1 c2 : cfg) (dom dom1 dom2 : R -> Prop)
  (at_ at1 at2 : R -> outcome (grid_sample R)) (x : R).
Hypothesis H1 : grid1 c1 u a dom1 at1.
Hypothesis H2 : grid1 c2 v a dom2 at2.
Hypothesis H0 : grid1 c w a dom at_.
Hypothesis Hw : forall i, (0 <= i < npts a)%Z -> val_at w i = p * val_at u i + q * val_at v i.
Hypothesis D1 : dom1 x.
Hypothesis D2 : dom2 x.
Hypothesis D0 : dom x.
Lemma combine_linear : exists r1 r2, linear1 ROps c1 at1 x = Ok r1 /\ linear1 ROps c2 at2 x = Ok r2 /\ linear1 ROps c at_ x = Ok (p * r1 + q * r2).
Proof using All.
  destruct (find_cell _ _ _ _ _ _ H0 D0) as (N & G & i & C). assert (R := proj1 C). assert (P := gap_pos a i G R).
  eexists _, _. split; [exact (linear_line _ _ _ _ _ _ i H1 D1 C)|]. split; [exact (linear_line _ _ _ _ _ _ i H2 D2 C)|].
  rewrite (linear_line _ _ _ _ _ _ i H0 D0 C). f_equal. unfold line. rewrite !Hw by lia. field. lra.
Qed.
Lemma combine_hold : exists r1 r2, hold_last1 ROps c1 at1 x = Ok r1 /\ hold_last1 ROps c2 at2 x = Ok r2 /\ hold_last1 ROps c at_ x = Ok (p * r1 + q * r2).
Proof using All.
  destruct (find_cell _ _ _ _ _ _ H0 D0) as (N & (G & Hn) & i & C).
  destruct (find_cell _ _ _ _ _ _ H1 D1) as (N1 & _). destruct (find_cell _ _ _ _ _ _ H2 D2) as (N2 & _).
  destruct (Rlt_le_dec x (coord a 0)) as [L|L].
  { eexists _, _. split; [exact (proj1 (C30_proof_outside x H1 D1) L)|]. split; [exact (proj1 (C30_proof_outside x H2 D2) L)|].
    rewrite (proj1 (C30_proof_outside x H0 D0) L). rewrite Hw by lia. reflexivity. }
  destruct (Rlt_le_dec (coord a (npts a - 1)) x) as [U|U].
  { eexists _, _. split; [exact (proj2 (C30_proof_outside x H1 D1) U)|]. split; [exact (proj2 (C30_proof_outside x H2 D2) U)|].
    rewrite (proj2 (C30_proof_outside x H0 D0) U). rewrite <- N, <- N1, <- N2, Hw by lia. reflexivity. }
  rewrite (C30_proof_inside H0 D0), (C30_proof_inside H1 D1), (C30_proof_inside H2 D2) by lra. apply combine_linear.
Qed.
End Combined.

Lemma val_combination p q u v i : length u = length v -> (0 <= i < zlen u)%Z ->
  val_at (combination p q u v) i = p * val_at u i + q * val_at v i.
Proof.
  intros L H. unfold val_at, combination, zlen in *. set (k := Z.to_nat i).
  assert (Hk : (k < length u)%nat) by lia. rewrite (nth_indep _ 0 (p * fst (0, 0) + q * snd (0, 0))).
  2:{ rewrite map_length, combine_length. lia. }
  rewrite (map_nth (fun z => p * fst z + q * snd z)), combine_nth by exact L. reflexivity.
Qed.
Theorem combined p q u v a c c1 c2 dom dom1 dom2 at_ at1 at2 x : grid1 c1 u a dom1 at1 -> grid1 c2 v a dom2 at2 ->
  grid1 c (combination p q u v) a dom at_ -> dom1 x -> dom2 x -> dom x ->
  (exists r1 r2, linear1 ROps c1 at1 x = Ok r1 /\ linear1 ROps c2 at2 x = Ok r2 /\ linear1 ROps c at_ x = Ok (p * r1 + q * r2)) /\
  (exists r1 r2, hold_last1 ROps c1 at1 x = Ok r1 /\ hold_last1 ROps c2 at2 x = Ok r2 /\ hold_last1 ROps c at_ x = Ok (p * r1 + q * r2)).
Proof.
  intros H1 H2 H0 D1 D2 D0.
  destruct (find_cell _ _ _ _ _ _ H1 D1) as (N1 & _). destruct (find_cell _ _ _ _ _ _ H2 D2) as (N2 & _).
  assert (Hw : forall i, (0 <= i < npts a)%Z -> val_at (combination p q u v) i = p * val_at u i + q * val_at v i).
  { intros i Hi. apply val_combination; [unfold zlen in *; lia|lia]. }
  split; [eapply combine_linear|eapply combine_hold]; eauto.
Qed.
Theorem rescaled_one_dim s t a b c c' vals dom dom' at_ at_' x : rescaled_axis (s, t) a b ->
  grid1 c vals a dom at_ -> grid1 c' vals b dom' at_' -> dom x -> dom' (s * x + t) ->
  linear1 ROps c' at_' (s * x + t) = linear1 ROps c at_ x /\ hold_last1 ROps c' at_' (s * x + t) = hold_last1 ROps c at_ x /\
  nearest1 ROps at_' (s * x + t) = nearest1 ROps at_ x /\
  (off_nodes a x -> left1 at_' (s * x + t) = left1 at_ x /\ right1 at_' (s * x + t) = right1 at_ x).
Proof.
  intros R Ha Hb D D'. split; [eapply rescale_linear; eauto|]. split; [eapply rescale_hold; eauto|].
  split; [eapply rescale_nearest1; eauto|]. eapply rescale_steps; eauto.
Qed.
Theorem reflected_one_dim a b c c' vals dom dom' at_ at_' x : reflected_axis a b ->
  grid1 c vals a dom at_ -> grid1 c' (rev vals) b dom' at_' -> dom x -> dom' (- x) ->
  linear1 ROps c' at_' (- x) = linear1 ROps c at_ x /\ hold_last1 ROps c' at_' (- x) = hold_last1 ROps c at_ x /\
  (no_tie a x -> nearest1 ROps at_' (- x) = nearest1 ROps at_ x) /\
  (off_nodes a x -> left1 at_' (- x) = right1 at_ x /\ right1 at_' (- x) = left1 at_ x).
Proof.
  intros R Ha Hb D D'. split; [eapply reflect_linear; eauto|]. split; [eapply reflect_hold; eauto|].
  split; [intros T; eapply reflect_nearest; eauto|]. intros O. eapply reflect_steps; eauto.
Qed.
