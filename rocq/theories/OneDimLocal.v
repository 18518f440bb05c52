(** One-dimensional interpolation reads two stored values, for every number type. *)
From Coq Require Import Lia ZArith List.
From Verif Require Import Base Ops ModelCore ModelOneDim CoreLemmas SearchLemmas Spec1DLocal.
Import ListNotations.
Unset Implicit Arguments.
Open Scope Z_scope.

Section Local.
Context {F : Type} (o : Ops F) (c : cfg).

Lemma same_at at_ at' x : at_ x = at' x -> same_results o c at_ at' x.
Proof. intros E. unfold same_results, linear1, hold_last1, left1, right1, nearest1. rewrite E. repeat split. Qed.
Lemma idx_pair (vals vals' : list F) i : length vals = length vals' -> 0 <= i -> same_pair (Z.to_nat i) vals vals' ->
  idx vals i = idx vals' i /\ idx vals (i + 1) = idx vals' (i + 1).
Proof.
  intros L Hi (A & B). unfold idx, zlen, aget. rewrite L, A.
  replace (Z.to_nat (i + 1)) with (S (Z.to_nat i)) by lia. rewrite B. split; reflexivity.
Qed.

Theorem local_regular start step n x : (2 <= Z.of_nat n <= isize_max)%Z ->
  exists i, (i + 1 < n)%nat /\ forall vals vals' g g', length vals = n -> length vals' = n ->
  r1_new o c start step vals = Ok g -> r1_new o c start step vals' = Ok g' -> same_pair i vals vals' ->
  same_results o c (r1_at o c g) (r1_at o c g') x.
Proof.
  intros Hn.
  set (q := match to_isize o (ffloor o (fdiv o (fsub o x start) step)) with Some i => i | None => 0 end).
  set (k := Z.min (Z.max q 0) (Z.of_nat n - 2)). exists (Z.to_nat k).
  assert (Hk : 0 <= k <= Z.of_nat n - 2) by (unfold k; lia). split; [lia|].
  intros vals vals' g g' L L' Hg Hg' P. apply same_at.
  unfold r1_new in Hg, Hg'. replace (zlen vals') with (zlen vals) in Hg' by (unfold zlen; lia).
  destruct (usize_sub c (zlen vals) 1) as [m| |]; [|discriminate..]. cbn [bind] in Hg, Hg'.
  destruct (of_usize o m) as [mf|]; [|discriminate]. cbn [bind ok_or] in Hg, Hg'.
  injection Hg as <-. injection Hg' as <-. unfold r1_at, r1_index. cbn [r1_start r1_stop r1_step r1_vals].
  unfold q in k. destruct (to_isize o _) as [i|]; [|reflexivity]. cbn [bind ok_or].
  replace (zlen vals') with (zlen vals) by (unfold zlen; lia).
  rewrite usize_sub_ok by (unfold zlen, two64, isize_max in *; lia). cbn [bind].
  rewrite as_isize_small by (unfold zlen; lia).
  replace (Z.min (Z.max i 0) (zlen vals - 2)) with k by (unfold k, zlen; lia).
  replace (as_usize k) with k by (unfold as_usize; rewrite Z.mod_small; unfold two64, isize_max in *; lia).
  destruct (of_usize o k) as [fi|]; [|reflexivity]. cbn [bind ok_or].
  destruct (idx_pair vals vals' k) as (E0 & E1); [lia|lia|exact P|].
  rewrite E0. destruct (idx vals' k) as [y0| |]; [|reflexivity..]. cbn [bind].
  rewrite usize_add_ok by (unfold two64, isize_max in *; lia). cbn [bind]. rewrite E1. reflexivity.
Qed.

Theorem local_rectilinear grid x : (2 <= zlen grid <= isize_max)%Z ->
  exists i, (i + 1 < length grid)%nat /\ forall vals vals' g g',
  c1_new grid vals = Ok g -> c1_new grid vals' = Ok g' -> same_pair i vals vals' ->
  same_results o c (c1_at o c g) (c1_at o c g') x.
Proof.
  intros Hn.
  set (q := match (do pp <- partition_point (fun v => flt o v x) grid ; isize_sub c (as_isize pp) 1) with Ok i => i | _ => 0 end).
  set (k := Z.min (as_usize (Z.max q 0)) (zlen grid - 2)). exists (Z.to_nat k).
  assert (Hk : 0 <= k <= zlen grid - 2).
  { unfold k, as_usize. assert (0 <= Z.max q 0 mod two64) by (apply Z.mod_pos_bound; reflexivity). lia. }
  unfold zlen in Hk. split; [lia|]. intros vals vals' g g' Hg Hg' P. apply same_at.
  unfold c1_new in Hg, Hg'.
  destruct (length grid =? length vals)%nat eqn:L; [|discriminate]. destruct (length grid =? length vals')%nat eqn:L'; [|discriminate].
  apply Nat.eqb_eq in L. apply Nat.eqb_eq in L'.
  destruct (length grid <? 2)%nat; [discriminate|]. injection Hg as <-. injection Hg' as <-.
  destruct (idx_pair vals vals' k) as (E0 & E1); [lia|lia|exact P|].
  unfold c1_at. change (c1_index o c (mkC1 grid vals) x) with (c1_index o c (mkC1 grid vals') x).
  destruct (c1_index o c (mkC1 grid vals') x) as [(i, e)| |] eqn:Ei; [|reflexivity..]. cbn [bind c1_grid c1_vals].
  assert (i = k).
  { unfold c1_index in Ei. cbn [c1_grid] in Ei. unfold k, q.
    destruct (partition_point _ grid) as [pp| |]; [|discriminate..]. cbn [bind] in Ei |- *.
    destruct (isize_sub c _ 1) as [i0| |]; [|discriminate..]. cbn [bind] in Ei.
    rewrite usize_sub_ok in Ei by (unfold zlen, two64, isize_max in *; lia). cbn [bind] in Ei.
    destruct (idx grid 0) as [g0| |]; [|discriminate..]. cbn [bind] in Ei.
    destruct (flt o x g0); [injection Ei as <- _; reflexivity|].
    destruct (usize_sub c (zlen grid) 1) as [m1| |]; [|discriminate..]. cbn [bind] in Ei.
    destruct (idx grid m1) as [gl| |]; [|discriminate..]. cbn [bind] in Ei.
    destruct (flt o gl x); injection Ei as <- _; reflexivity. }
  subst i. rewrite usize_add_ok by (unfold zlen, two64, isize_max in *; lia).
  destruct (idx grid k) as [x0| |]; [|reflexivity..]. cbn [bind].
  destruct (idx grid (k + 1)) as [x1| |]; [|reflexivity..]. cbn [bind]. rewrite E0, E1. reflexivity.
Qed.
End Local.
