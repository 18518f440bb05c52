(** Regular one-dimensional grids with a negative step, in exact arithmetic. *)
From Coq Require Import Reals Lra Lia ZArith List.
From Flocq Require Import Core.Core IEEE754.BinarySingleNaN.
From Verif Require Import Base Ops RInst FInst ModelCore ModelOneDim Spec SpecReal Spec1D Spec1DMaps SpecTotal1D.
From Verif Require Import CoreLemmas SearchLemmas RChar RProofs3 OneDimProofs OneDimMaps Total1D.
Import ListNotations.
Unset Implicit Arguments.
Open Scope R_scope.

Section Down.
Variables (c : cfg) (start step : R) (vals : list R).
Hypotheses (Hn : (2 <= zlen vals <= isize_max)%Z) (Hs : step < 0).
Notation stop := (start + step * IZR (zlen vals - 1)).

Lemma new_R s h g : r1_new ROps c s h vals = Ok g -> g = mkR1 s (s + h * IZR (zlen vals - 1)) h vals.
Proof using Hn.
  unfold r1_new. rewrite usize_sub_ok by (unfold two64, isize_max in *; lia). simpl. intros E. inversion E. reflexivity.
Qed.
Definition flag (s e x : R) : extrap := if Rltb e x then ExtrapHigh else if Rltb x s then ExtrapLow else Inside.
Definition cell (q : R) : Z := Z.min (Z.max (Zfloor q) 0) (zlen vals - 2).
Lemma cell_range q : (0 <= cell q <= zlen vals - 2)%Z.
Proof using Hn. unfold cell. lia. Qed.
Lemma at_R s h g x : r1_new ROps c s h vals = Ok g -> IZR isize_min <= (x - s) / h < IZR (isize_max + 1) ->
  let i := cell ((x - s) / h) in
  r1_at ROps c g x = Ok (mkSample (s + h * IZR i) (val_at vals i) (s + h * IZR i + h) (val_at vals (i + 1)) (flag s (s + h * IZR (zlen vals - 1)) x)).
Proof using Hn.
  intros Hg D i. apply new_R in Hg. subst g.
  destruct (@R_to_isize_fits isize_min ((x - s) / h) ltac:(lia) D) as (Ei & _).
  unfold r1_at, r1_index. cbn [r1_start r1_stop r1_step r1_vals]. simpl ok_or.
  change (ffloor ROps) with (fun x => IZR (Zfloor x)). simpl (to_isize ROps _).
  cbn [fdiv fsub ROps]. rewrite Ei. cbn [bind ok_or].
  rewrite usize_sub_ok by (unfold two64, isize_max in *; lia). cbn [bind].
  rewrite as_isize_small by lia. fold (cell ((x - s) / h)). fold i.
  assert (Hi : (0 <= i <= zlen vals - 2)%Z) by apply cell_range.
  assert (Eu : as_usize i = i) by (unfold as_usize; rewrite Z.mod_small; unfold two64, isize_max in *; lia).
  rewrite Eu. rewrite (@idx_nth _ _ i 0) by lia. cbn [bind].
  rewrite usize_add_ok by (unfold two64, isize_max in *; lia). cbn [bind].
  rewrite (@idx_nth _ _ (i + 1)%Z 0) by lia. cbn [bind]. reflexivity.
Qed.

(** The same cell as on the mirrored grid. *)
Lemma mirrored_cell x : (- x - - start) / - step = (x - start) / step.
Proof using Hs. field. lra. Qed.
Lemma mirrored g g' x : r1_new ROps c start step vals = Ok g -> r1_new ROps c (- start) (- step) vals = Ok g' ->
  IZR isize_min <= (x - start) / step < IZR (isize_max + 1) ->
  linear1 ROps c (r1_at ROps c g) x = linear1 ROps c (r1_at ROps c g') (- x) /\
  nearest1 ROps (r1_at ROps c g) x = nearest1 ROps (r1_at ROps c g') (- x).
Proof using Hn Hs.
  intros Hg Hg' D. assert (D' := D). rewrite <- mirrored_cell in D'.
  assert (A := at_R _ _ _ _ Hg D). assert (A' := at_R _ _ _ _ Hg' D'). cbv zeta in A, A'. rewrite mirrored_cell in A'.
  set (i := cell ((x - start) / step)) in *. unfold linear1, nearest1. rewrite A, A'. cbn [bind]. split.
  - f_equal. unfold line_through. cbn [sx0 sy0 sx1 sy1]. destruct (use_fma c); simpl; field; lra.
  - cbn [sx0 sy0 sx1 sy1]. f_equal. cbn [fabs fsub fle ROps].
    replace (- x - (- start + - step * IZR i)) with (- (x - (start + step * IZR i))) by ring.
    replace (- x - (- start + - step * IZR i + - step)) with (- (x - (start + step * IZR i + step))) by ring.
    rewrite !Rabs_Ropp. reflexivity.
Qed.
Lemma zlen_rev : zlen (rev vals) = zlen vals.
Proof. unfold zlen. rewrite rev_length. reflexivity. Qed.
Theorem down_linear c' g g' x : r1_new ROps c start step vals = Ok g -> r1_new ROps c' stop (- step) (rev vals) = Ok g' ->
  IZR isize_min <= (x - start) / step < IZR (isize_max + 1) -> IZR isize_min <= (x - stop) / - step < IZR (isize_max + 1) ->
  linear1 ROps c (r1_at ROps c g) x = linear1 ROps c' (r1_at ROps c' g') x /\
  (no_tie (mkAxis (zlen vals) (fun i => stop + - step * IZR i)) x ->
   nearest1 ROps (r1_at ROps c g) x = nearest1 ROps (r1_at ROps c' g') x).
Proof using Hn Hs.
  intros Hg Hg' D D'.
  assert (G : exists h, r1_new ROps c (- start) (- step) vals = Ok h).
  { unfold r1_new. rewrite usize_sub_ok by (unfold two64, isize_max in *; lia). simpl. eexists. reflexivity. }
  destruct G as (h & Hh). destruct (mirrored g h x Hg Hh D) as (L & N). rewrite L, N.
  assert (Ga := @grid1_regular c vals (- start) (- step) h Hn ltac:(lra) Hh).
  assert (Gb := @grid1_regular c' (rev vals) stop (- step) g' ltac:(rewrite zlen_rev; exact Hn) ltac:(lra) Hg'). rewrite zlen_rev in Gb.
  assert (R : reflected_axis (mkAxis (zlen vals) (fun i => - start + - step * IZR i)) (mkAxis (zlen vals) (fun i => stop + - step * IZR i))).
  { split; [reflexivity|]. intros i Hi. cbn [coord npts] in *. rewrite !minus_IZR. ring. }
  destruct (reflected_one_dim _ _ _ _ _ _ _ _ _ (- x) R Ga Gb) as (E1 & _ & E2 & _).
  - cbv beta. rewrite mirrored_cell. exact D.
  - cbv beta. rewrite Ropp_involutive. exact D'.
  - rewrite Ropp_involutive in E1, E2. split; [symmetry; exact E1|]. intros T. symmetry. apply E2.
    intros i Hi. cbn [npts coord] in *. specialize (T (zlen vals - 2 - i)%Z ltac:(cbn [npts]; lia)). cbn [coord] in T.
    intros E. apply T. rewrite plus_IZR in E. rewrite ?plus_IZR, ?minus_IZR. lra.
Qed.

(** The three interpolators that use the flags. *)
Lemma step_pos : stop < start.
Proof using Hn Hs. assert (1 <= IZR (zlen vals - 1)) by (apply (IZR_le 1); lia). nra. Qed.
Theorem down_holds g ev x : r1_new ROps c start step vals = Ok g ->
  ev = hold_last1 ROps c (r1_at ROps c g) \/ ev = left1 (r1_at ROps c g) \/ ev = right1 (r1_at ROps c g) ->
  IZR isize_min <= (x - start) / step < IZR (isize_max + 1) ->
  (start < x -> ev x = Ok (val_at vals 1)) /\
  (forall i, (0 <= i <= zlen vals - 2)%Z -> start + step * IZR (i + 1) < x <= start + step * IZR i -> ev x = Ok (val_at vals (i + 1))) /\
  (x <= stop -> ev x = Ok (val_at vals (zlen vals - 2))).
Proof using Hn Hs.
  intros Hg M D. assert (A := at_R _ _ _ _ Hg D). cbv zeta in A. assert (SP := step_pos).
  set (q := (x - start) / step) in *.
  assert (Q : x = start + step * q) by (unfold q; field; lra).
  assert (Hi : stop < x -> ev x = Ok (val_at vals (cell q + 1))).
  { intros X. assert (F : flag start stop x = ExtrapHigh) by (unfold flag; rewrite (proj2 (Rltb_true _ _) X); reflexivity).
    rewrite F in A. destruct M as [->|[->| ->]]; unfold hold_last1, left1, right1; rewrite A; reflexivity. }
  assert (Lo : x <= stop -> ev x = Ok (val_at vals (cell q))).
  { intros X. assert (F : flag start stop x = ExtrapLow).
    { unfold flag. rewrite (proj2 (Rltb_false _ _)) by lra. rewrite (proj2 (Rltb_true x start)) by lra. reflexivity. }
    rewrite F in A. destruct M as [->|[->| ->]]; unfold hold_last1, left1, right1; rewrite A; reflexivity. }
  split; [|split].
  - intros X. rewrite Hi by lra. replace (cell q) with 0%Z; [reflexivity|]. unfold cell.
    assert (Zfloor q < 0)%Z; [|lia]. apply lt_IZR. apply Rle_lt_trans with (1 := Zfloor_lb q). nra.
  - intros i Ri X. rewrite Hi.
    + replace (cell q) with i; [reflexivity|]. unfold cell. replace (Zfloor q) with i; [lia|].
      symmetry. apply Zfloor_imp. split; nra.
    + assert (IZR (i + 1) <= IZR (zlen vals - 1)) by (apply IZR_le; lia). nra.
  - intros X. rewrite Lo by exact X. replace (cell q) with (zlen vals - 2)%Z; [reflexivity|]. unfold cell.
    assert (zlen vals - 1 <= Zfloor q)%Z; [|lia]. apply Zfloor_lub. nra.
Qed.
End Down.

(** A step of zero or NaN: no evaluation succeeds. *)
Section Flat.
Context {prec emax : Z} (Hp : Prec_gt_0 prec) (He : Prec_lt_emax prec emax).
Notation o := (BOps Hp He).
Lemma div_flat (a h : binary_float prec emax) : flt o (fzero o) h = false -> flt o h (fzero o) = false ->
  to_isize o (ffloor o (fdiv o a h)) = None.
Proof.
  destruct h as [sh|sh| |sh m e B]; intros P N.
  - destruct a; reflexivity.
  - destruct sh; discriminate.
  - destruct a; reflexivity.
  - destruct sh; discriminate.
Qed.
Theorem flat_err c (start step : binary_float prec emax) vals g ev x :
  flt o (fzero o) step = false -> flt o step (fzero o) = false ->
  r1_new o c start step vals = Ok g -> method_1d o c (r1_at o c g) ev -> ev x = Err msg_num.
Proof.
  intros P N Hg M. assert (A : r1_at o c g x = Err msg_num).
  { eapply r1_at_err; [exact Hg|]. unfold cell_number. apply div_flat; assumption. }
  eapply method_err; eauto.
Qed.
End Flat.
