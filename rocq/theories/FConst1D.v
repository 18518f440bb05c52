(** Constant data in one dimension, in floating point. *)
From Coq Require Import Reals Lra Lia List ZArith.
From Flocq Require Import Core.Core IEEE754.BinarySingleNaN.
From Verif Require Import Base Ops FInst ModelCore ModelOneDim Spec SpecOrder SpecIEEE SpecConst1D.
From Verif Require Import CoreLemmas SearchLemmas OrderLemmas OrderProofs FLemmas UtilProofs FProofs FProofs2 OneDimProofs Total1D FMissing F1D.
Import ListNotations.
Unset Implicit Arguments.
Open Scope R_scope.

Section B.
Variables prec emax : Z.
Context (Hp : Prec_gt_0 prec) (He : Prec_lt_emax prec emax).
Notation fl := (binary_float prec emax).
Notation o := (BOps Hp He).
Notation fin x := (is_finite x = true).

Lemma line_const c (s : grid_sample fl) x r : is_real (sy0 s) r -> is_real (sy1 s) r ->
  B2R (fsub o (sx1 s) (sx0 s)) <> 0 -> fin (fsub o x (sx0 s)) -> is_real (line_through o c s x) r.
Proof.
  intros (F0 & V0) (F1 & V1) N D. unfold line_through. cbv zeta.
  assert (Z : B2R (fzero o) = 0) by reflexivity.
  destruct (sub_exact prec emax Hp He (sy1 s) (sy0 s) (fzero o) F1 F0 ltac:(lra)) as (Fd & Vd).
  assert (Vd' : B2R (fsub o (sy1 s) (sy0 s)) = 0) by (rewrite Vd; lra).
  destruct (div_exact prec emax Hp He (fsub o (sy1 s) (sy0 s)) (fsub o (sx1 s) (sx0 s)) (fzero o) Fd N) as (Fs & Vs).
  { rewrite Vd', Z. unfold Rdiv. ring. }
  assert (Vs' : B2R (fdiv o (fsub o (sy1 s) (sy0 s)) (fsub o (sx1 s) (sx0 s))) = 0) by (rewrite Vs, Vd'; unfold Rdiv; ring).
  set (m := fdiv o _ _) in *. set (d := fsub o x (sx0 s)) in *. destruct (use_fma c).
  - destruct (fma_exact prec emax Hp He m d (sy0 s) (sy0 s) Fs D F0) as (F & V); [rewrite Vs'; ring|].
    split; [exact F|]. rewrite V, Vs', V0. ring.
  - destruct (mul_exact prec emax Hp He m d (fzero o) Fs D) as (F & V); [rewrite Vs', Z; ring|].
    assert (V' : B2R (fmul o m d) = 0) by (rewrite V, Vs'; ring).
    destruct (add_exact prec emax Hp He (sy0 s) (fmul o m d) (sy0 s) F0 F) as (F' & W); [rewrite V'; ring|].
    split; [exact F'|]. rewrite W, V', V0. ring.
Qed.
Lemma all_const c at_ x s r : at_ x = Ok s -> is_real (sy0 s) r -> is_real (sy1 s) r ->
  B2R (fsub o (sx1 s) (sx0 s)) <> 0 -> fin (fsub o x (sx0 s)) ->
  (exists v, linear1 o c at_ x = Ok v /\ is_real v r) /\ (exists v, hold_last1 o c at_ x = Ok v /\ is_real v r).
Proof.
  intros E R0 R1 N D. assert (L := line_const c s x r R0 R1 N D). unfold linear1, hold_last1. rewrite E. cbn [bind].
  split; eexists; (split; [reflexivity|]); [exact L|]. destruct (sextrap s); assumption.
Qed.

Theorem const_rectilinear c (grid vals : list fl) g x r : (zlen vals <= isize_max)%Z -> increasing_grid o grid ->
  Forall moderate grid -> moderate x -> c1_new grid vals = Ok g -> Forall (fun v => is_real v r) vals ->
  (exists v, linear1 o c (c1_at o c g) x = Ok v /\ is_real v r) /\ (exists v, hold_last1 o c (c1_at o c g) x = Ok v /\ is_real v r).
Proof.
  intros Hn I M Mx Hg C.
  destruct (c1_sample o c grid vals g x (fzero o) (@BOps_transitive _ _ Hp He) I Hn Hg) as (Ez & Hz & B & e & Es & _).
  destruct B as (Ri & _). set (i := clipped_cell o x grid) in *.
  assert (Li : (Z.to_nat (i + 1) < length grid)%nat) by (unfold zlen in *; lia).
  assert (Lv : length grid = length vals) by (unfold zlen in *; lia).
  rewrite Forall_forall in C, M.
  assert (A0 : moderate (nth (Z.to_nat i) grid (fzero o))) by (apply M, nth_In; lia).
  assert (A1 : moderate (nth (Z.to_nat (i + 1)) grid (fzero o))) by (apply M, nth_In; lia).
  assert (Lt : flt o (nth (Z.to_nat i) grid (fzero o)) (nth (Z.to_nat (i + 1)) grid (fzero o)) = true).
  { apply (I (Z.to_nat i) (Z.to_nat (i + 1))); [lia| |]; apply nth_error_nth'; lia. }
  apply (@ltb_fin _ _ Hp He) in Lt; [|apply A0|apply A1].
  apply (all_const c _ x _ r Es); cbn [sy0 sy1 sx0 sx1].
  - apply C, nth_In. lia.
  - apply C, nth_In. lia.
  - rewrite (proj2 (small_sub prec emax Hp He _ _ A1 A0)). apply sub_nonzero; [assumption..|lra].
  - apply (small_sub prec emax Hp He _ _ Mx A0).
Qed.

Theorem const_regular c (start h x : fl) vals g r : (2 <= zlen vals <= isize_max)%Z -> r1_new o c start h vals = Ok g ->
  nodes_apart Hp He start h (zlen vals) x -> Forall (fun v => is_real v r) vals ->
  (exists v w, linear1 o c (r1_at o c g) x = Ok v /\ is_real v r /\ hold_last1 o c (r1_at o c g) x = Ok w /\ is_real w r) \/
  (linear1 o c (r1_at o c g) x = Err msg_num /\ hold_last1 o c (r1_at o c g) x = Err msg_num).
Proof.
  intros Hn Hg A C.
  apply r1_new_inv in Hg as (Ev & Es & Et).
  assert (K : (exists s, r1_at o c g x = Ok s /\ In (sy0 s) vals /\ In (sy1 s) vals /\ exists i, (0 <= i <= zlen vals - 2)%Z /\
      reg_node Hp He false start h i = Some (sx0 s) /\ sx1 s = fadd o (sx0 s) h) \/ r1_at o c g x = Err msg_num).
  { unfold r1_at, r1_index. rewrite Es, Et, Ev.
    destruct (to_isize o _) as [i|]; [|right; reflexivity]. cbn [ok_or bind].
    rewrite usize_sub_ok by (unfold two64, isize_max in *; lia). cbn [bind]. rewrite as_isize_small by lia.
    set (j := Z.min (Z.max i 0) (zlen vals - 2)). assert (Hj : (0 <= j <= zlen vals - 2)%Z) by lia.
    replace (as_usize j) with j by (unfold as_usize; rewrite Z.mod_small; unfold two64, isize_max in *; lia).
    destruct (of_usize o j) as [fj|] eqn:Ej; [|right; reflexivity]. cbn [ok_or bind].
    rewrite (@idx_nth _ vals j (fzero o)) by lia. cbn [bind].
    rewrite usize_add_ok by (unfold two64, isize_max in *; lia). cbn [bind].
    rewrite (@idx_nth _ vals (j + 1)%Z (fzero o)) by lia. cbn [bind]. left. eexists. split; [reflexivity|]. cbn [sy0 sy1 sx0 sx1].
    split; [apply nth_In; unfold zlen in *; lia|]. split; [apply nth_In; unfold zlen in *; lia|].
    exists j. split; [exact Hj|]. split; [unfold reg_node; rewrite Ej; reflexivity|reflexivity]. }
  destruct K as [(s & E & I0 & I1 & i & Hi & Ei & E1)|E].
  - left. destruct (A i (sx0 s) Hi Ei) as (_ & W & D). rewrite <- E1 in W. rewrite Forall_forall in C.
    destruct (all_const c _ x s r E (C _ I0) (C _ I1) W D) as ((v & Lv & Rv) & (w & Lw & Rw)). eauto 8.
  - right. unfold linear1, hold_last1. rewrite E. split; reflexivity.
Qed.
End B.
