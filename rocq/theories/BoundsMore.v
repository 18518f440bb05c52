(** Bounds checks with observations that are not finite, and the fma feature in the remaining
    batch functions. *)
From Coq Require Import Reals Lra Lia List Bool ZifyBool PeanoNat FunctionalExtensionality.
From Flocq Require Import Core.Core IEEE754.BinarySingleNaN.
From Verif Require Import Base Ops RInst FInst ModelCore ModelLinear ModelNearest ModelCubic Spec SpecReal.
From Verif Require Import FLemmas UtilProofs RProofs3.
Import ListNotations.
Unset Implicit Arguments.
Open Scope list_scope.

Lemma batch_loop_ext {A} (f g : nat -> outcome A) is out : (forall i, f i = g i) -> batch_loop f is out = batch_loop g is out.
Proof. intros H. revert out. induction is as [|i t IH]; intros out; simpl; auto. rewrite H. destruct (g i); auto. Qed.

Lemma aget_map {A B} (f : A -> B) l i : aget (map f l) i = do v <- aget l i ; Ok (f v).
Proof. unfold aget. rewrite nth_error_map. destruct (nth_error l i); reflexivity. Qed.

Section B.
Variables prec emax : Z.
Context (Hp : Prec_gt_0 prec) (He : Prec_lt_emax prec emax).
Notation fl := (binary_float prec emax).
Notation o := (BOps Hp He).
Notation not_nan := (filter (fun x : fl => negb (is_nan x))).

Lemma violates_nan lo hi atol xs : violates o lo hi atol xs = violates o lo hi atol (not_nan xs).
Proof.
  unfold violates. induction xs as [|x xs IH]; auto. cbn [filter existsb].
  destruct (is_nan x) eqn:E; cbn [negb]; [|cbn [existsb]; rewrite IH; reflexivity].
  rewrite IH. destruct x; try discriminate E. destruct lo, hi, atol; reflexivity.
Qed.

Theorem nan_ignored_rect grids obs atol out :
  mlc_check_bounds o grids obs atol out = mlc_check_bounds o grids (map not_nan obs) atol out.
Proof.
  unfold mlc_check_bounds. rewrite map_length. destruct (negb _); auto. apply batch_loop_ext. intros i.
  destruct (aget grids i) as [g| |]; cbn [bind]; auto. destruct (aget g 0) as [lo| |]; cbn [bind]; auto.
  destruct (nth_error (rev g) 0); auto. rewrite aget_map. destruct (aget obs i); cbn [bind]; auto. rewrite violates_nan. reflexivity.
Qed.

Theorem nan_ignored_reg c dims starts steps obs atol out :
  mlr_check_bounds o c dims starts steps obs atol out = mlr_check_bounds o c dims starts steps (map not_nan obs) atol out.
Proof.
  unfold mlr_check_bounds. rewrite map_length. destruct (negb _); auto. apply batch_loop_ext. intros i.
  destruct (aget starts i) as [g| |]; cbn [bind]; auto. destruct (aget dims i) as [d| |]; cbn [bind]; auto.
  destruct (usize_sub c d 1) as [d1| |]; cbn [bind]; auto. destruct (of_usize o d1) as [m|]; auto.
  destruct (aget steps i) as [h| |]; cbn [bind]; auto.
  rewrite aget_map. destruct (aget obs i); cbn [bind]; auto. rewrite violates_nan. reflexivity.
Qed.

Lemma infinite_flagged s lo hi atol xs : is_finite lo = true -> is_finite hi = true -> is_nan atol = false ->
  In (B754_infinity s) xs -> violates o lo hi atol xs = true.
Proof.
  intros Fl Fh Na I. unfold violates. apply existsb_exists. exists (B754_infinity s). split; auto.
  destruct lo; try discriminate Fl; destruct hi; try discriminate Fh; destruct atol as [|[]| |[]]; try discriminate Na; destruct s; reflexivity.
Qed.

Theorem infinite_flagged_rect grids obs atol out :
  Forall (fun g => (1 <= length g)%nat) grids -> length obs = length grids -> length out = length grids ->
  is_nan atol = false ->
  Forall (Forall (fun x : fl => is_finite x = true)) grids ->
  exists out', mlc_check_bounds o grids obs atol out = (Ok tt, out') /\ length out' = length grids /\
    forall k s, (k < length grids)%nat -> In (B754_infinity s) (nth k obs []) -> nth k out' false = true.
Proof.
  intros Hg L1 L2 Na Fg. destruct (@check_rect_any _ o grids obs atol out (fzero o) Hg L1 L2) as (out' & E & L & H).
  exists out'. split; auto. split; auto. intros k s Hk I. rewrite (H k Hk). 
  rewrite Forall_forall in Fg. assert (Fk := Fg _ (nth_In _ [] Hk)). rewrite Forall_forall in Fk.
  rewrite Forall_forall in Hg. assert (Lk := Hg _ (nth_In _ [] Hk)).
  apply (infinite_flagged s); auto; apply Fk, nth_In; lia.
Qed.

Theorem infinite_flagged_reg c dims starts steps obs atol out :
  length starts = length dims -> length steps = length dims ->
  Forall (fun n => (1 <= n < two64)%Z) dims ->
  length obs = length dims -> length out = length dims -> is_nan atol = false ->
  exists out', mlr_check_bounds o c dims starts steps obs atol out = (Ok tt, out') /\ length out' = length dims /\
    forall k s, (k < length dims)%nat -> exists m, of_usize o (nth k dims 0 - 1)%Z = Some m /\
      let first := nth k starts (B754_zero false) in
      let lst := fadd o first (fmul o (nth k steps (B754_zero false)) m) in
      (is_finite first = true -> is_finite lst = true ->
      In (B754_infinity s) (nth k obs []) -> nth k out' false = true).
Proof.
  intros L1 L2 Hd L3 L4 Na.
  destruct (@check_reg_any _ o c dims starts steps obs atol out (fzero o) (usize_converts_B Hp He) L1 L2 Hd L3 L4) as (out' & E & L & H).
  exists out'. split; auto. split; auto. intros k s Hk. destruct (H k Hk) as (m & Em & Hv). exists m. split; auto.
  cbv zeta in Hv |- *. change (fzero o) with (B754_zero false : fl) in Hv. intros Ff Fl I. rewrite Hv.
  destruct (min_fin Hp He _ _ Ff Fl) as (Fm & _). destruct (max_fin Hp He _ _ Ff Fl) as (FM & _).
  apply (infinite_flagged s); auto.
Qed.
End B.

(** ** fma: the recursive batch functions and the allocating ones *)
Section Fma.
Variable ov : bool.
Notation c1 := (mkCfg true ov).
Notation c0 := (mkCfg false ov).
Ltac ext := repeat match goal with |- ?f = ?g => let x := fresh "a" in apply functional_extensionality; intros x end.

Lemma mlrr_interpn_fma : mlrr_interpn ROps c1 = mlrr_interpn ROps c0.
Proof.
  extensionality a1; extensionality a2; extensionality a3; extensionality a4; extensionality a5; extensionality a6.
  unfold mlrr_interpn, mlrr_interp. rewrite mlrr_fma. reflexivity.
Qed.
Lemma mlcr_interpn_fma : mlcr_interpn ROps c1 = mlcr_interpn ROps c0.
Proof.
  extensionality a1; extensionality a2; extensionality a3; extensionality a4.
  unfold mlcr_interpn, mlcr_interp. rewrite mlcr_fma. reflexivity.
Qed.
Lemma mcrr_interpn_fma : mcrr_interpn ROps c1 = mcrr_interpn ROps c0.
Proof.
  extensionality a1; extensionality a2; extensionality a3; extensionality a4; extensionality a5; extensionality a6; extensionality a7.
  unfold mcrr_interpn, mcrr_interp. rewrite mcrr_fma. reflexivity.
Qed.
Lemma mccr_interpn_fma : mccr_interpn ROps c1 = mccr_interpn ROps c0.
Proof.
  extensionality a1; extensionality a2; extensionality a3; extensionality a4; extensionality a5.
  unfold mccr_interpn, mccr_interp. rewrite mccr_fma. reflexivity.
Qed.

Theorem C41_proof_recursive :
  mlrr_interpn ROps c1 = mlrr_interpn ROps c0 /\ mlcr_interpn ROps c1 = mlcr_interpn ROps c0 /\
  mcrr_interpn ROps c1 = mcrr_interpn ROps c0 /\ mccr_interpn ROps c1 = mccr_interpn ROps c0.
Proof. repeat split; auto using mlrr_interpn_fma, mlcr_interpn_fma, mcrr_interpn_fma, mccr_interpn_fma. Qed.

Theorem C41_proof_alloc :
  mlr_interpn_alloc ROps c1 = mlr_interpn_alloc ROps c0 /\ mlrr_interpn_alloc ROps c1 = mlrr_interpn_alloc ROps c0 /\
  mlc_interpn_alloc ROps c1 = mlc_interpn_alloc ROps c0 /\ mlcr_interpn_alloc ROps c1 = mlcr_interpn_alloc ROps c0 /\
  nr_interpn_alloc ROps c1 = nr_interpn_alloc ROps c0 /\ nc_interpn_alloc ROps c1 = nc_interpn_alloc ROps c0 /\
  mcr_interpn_alloc ROps c1 = mcr_interpn_alloc ROps c0 /\ mcrr_interpn_alloc ROps c1 = mcrr_interpn_alloc ROps c0 /\
  mcc_interpn_alloc ROps c1 = mcc_interpn_alloc ROps c0 /\ mccr_interpn_alloc ROps c1 = mccr_interpn_alloc ROps c0.
Proof.
  unfold mlr_interpn_alloc, mlrr_interpn_alloc, mlc_interpn_alloc, mlcr_interpn_alloc, nr_interpn_alloc, nc_interpn_alloc,
    mcr_interpn_alloc, mcrr_interpn_alloc, mcc_interpn_alloc, mccr_interpn_alloc.
  rewrite mlr_interpn_fma, mlc_interpn_fma, nr_interpn_fma, nc_interpn_fma, mcr_interpn_fma, mcc_interpn_fma,
    mlrr_interpn_fma, mlcr_interpn_fma, mcrr_interpn_fma, mccr_interpn_fma. repeat split; reflexivity.
Qed.
End Fma.
