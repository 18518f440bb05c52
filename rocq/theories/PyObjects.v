(** Proofs about the inputs that the Python classes accept (C104). *)
From Coq Require Import Reals Lra ZArith Lia List Bool PeanoNat.
From Flocq Require Import Core.Core Plus_error IEEE754.BinarySingleNaN.
From Verif Require Import Base Ops FInst ModelPython ModelSerial SpecPython SpecSerial SpecPyObjects SerialProofs PyProofs2.
Import ListNotations.
Unset Implicit Arguments.
Open Scope Z_scope.

Section Fmt.
Variables prec emax : Z.
Context (Hp : FLX.Prec_gt_0 prec) (He : Prec_lt_emax prec emax).
Notation fl := (binary_float prec emax).

Lemma ltb_less (x y : fl) : Bltb x y = true <-> less x y.
Proof.
  split.
  - intros H. destruct (is_finite x) eqn:Fx, (is_finite y) eqn:Fy.
    + rewrite Bltb_correct in H by assumption. apply less_finite; auto.
      destruct (Rlt_bool_spec (B2R x) (B2R y)) as [L|L]; [exact L|discriminate H].
    + destruct y as [s|s| |s m e b]; try discriminate Fy.
      * destruct s; [destruct x as [s'|s'| |s' m' e' b']; try destruct s'; discriminate|]. apply less_top. exact Fx.
      * destruct x as [s'|s'| |s' m' e' b']; discriminate H.
    + destruct x as [s|s| |s m e b]; try discriminate Fx.
      * destruct s; [|destruct y as [s'|s'| |s' m' e' b']; try destruct s'; discriminate]. apply less_bottom. exact Fy.
      * discriminate H.
    + destruct x as [s|s| |s m e b]; try discriminate Fx; destruct y as [s'|s'| |s' m' e' b']; try discriminate Fy; try discriminate H.
      destruct s, s'; try discriminate H. apply less_ends.
  - intros [x' y' Fx Fy L|x' F|y' F|].
    + rewrite Bltb_correct by assumption. apply Rlt_bool_true. exact L.
    + destruct x' as [s|s| |s m e b]; try discriminate F; try destruct s; reflexivity.
    + destruct y' as [s|s| |s m e b]; try discriminate F; try destruct s; reflexivity.
    + reflexivity.
Qed.

Lemma sign_of_less (a b : fl) : is_finite a = true -> is_finite b = true -> (B2R a < B2R b)%R ->
  Bsign b = negb (Bsign a) -> Bsign b = false.
Proof.
  intros Fa Fb L S. destruct (Bsign b) eqn:E; [|reflexivity]. exfalso.
  assert (A : Bsign a = false) by (destruct (Bsign a); [discriminate S|reflexivity]).
  assert (0 <= B2R a)%R.
  { destruct a as [s|s| |s m e bb]; try discriminate Fa; [apply Rle_refl|]. cbn in A. subst s. apply F2R_ge_0. discriminate. }
  assert (B2R b <= 0)%R.
  { destruct b as [s|s| |s m e bb]; try discriminate Fb; [apply Rle_refl|]. cbn in E. subst s. apply F2R_le_0. discriminate. }
  lra.
Qed.

Lemma diff_less (a b : fl) : Bltb (B754_zero false) (Bminus mode_NE b a) = true <-> less a b.
Proof.
  split.
  - intros H. apply ltb_less. exact (differences_B prec emax Hp He a b H).
  - intros [x y Fx Fy L|x F|y F|].
    + pose proof (Bminus_correct prec emax Hp He mode_NE y x Fy Fx) as Q.
      destruct (Rlt_bool _ _).
      * destruct Q as (V & F & _). rewrite Bltb_correct by (try reflexivity; exact F). apply Rlt_bool_true.
        rewrite V. change (B2R (B754_zero false)) with 0%R.
        assert (N : (0 <= round radix2 (SpecFloat.fexp prec emax) (round_mode mode_NE) (B2R y - B2R x))%R).
        { apply round_ge_generic; [apply fexp_correct; exact Hp|apply valid_rnd_round_mode|apply generic_format_0|lra]. }
        assert (Z : (round radix2 (SpecFloat.fexp prec emax) (round_mode mode_NE) (B2R y - B2R x) <> 0)%R).
        { unfold Rminus. apply round_plus_neq_0; [apply fexp_correct; exact Hp| |apply valid_rnd_round_mode| | |lra].
          - change (SpecFloat.fexp prec emax) with (FLT_exp (SpecFloat.emin prec emax) prec). typeclasses eauto.
          - apply generic_format_B2R.
          - apply generic_format_opp. apply generic_format_B2R. }
        lra.
      * destruct Q as (O & S). rewrite (sign_of_less x y Fx Fy L S) in O.
        destruct (Bminus mode_NE y x) as [s|s| |s m e bb]; try discriminate O. cbn in O. injection O as ->. reflexivity.
    + destruct x as [s|s| |s m e bb]; try discriminate F; reflexivity.
    + destruct y as [s|s| |s m e bb]; try discriminate F; reflexivity.
    + reflexivity.
Qed.

Lemma positive_ok (l : list fl) : forallb (fun h => flt (BOps Hp He) (fzero (BOps Hp He)) h) l = true <-> Forall positive l.
Proof.
  rewrite forallb_forall, Forall_forall. split; intros H x Hx.
  - apply (ltb_less (B754_zero false) x). exact (H x Hx).
  - exact (proj2 (ltb_less (B754_zero false) x) (H x Hx)).
Qed.
Lemma np_diff_cons (a b : fl) l : np_diff (BOps Hp He) (a :: b :: l) = Bminus mode_NE b a :: np_diff (BOps Hp He) (b :: l).
Proof. reflexivity. Qed.
Lemma increasing_ok (l : list fl) :
  forallb (fun d => flt (BOps Hp He) (fzero (BOps Hp He)) d) (np_diff (BOps Hp He) l) = true <-> increasing_list l.
Proof.
  induction l as [|a l IH].
  - split; [|reflexivity]. intros _ i x y E. destruct i; discriminate E.
  - destruct l as [|b l].
    + split; [|reflexivity]. intros _ i x y _ E. destruct i as [|[|i]]; discriminate E.
    + rewrite np_diff_cons. cbn [forallb]. rewrite andb_true_iff, IH. split.
      * intros (H & K) i x y Ex Ey. destruct i as [|i].
        -- injection Ex as <-. injection Ey as <-. apply diff_less. exact H.
        -- exact (K i x y Ex Ey).
      * intros H. split.
        -- exact (proj2 (diff_less a b) (H 0%nat a b eq_refl eq_refl)).
        -- intros i x y Ex Ey. exact (H (S i) x y Ex Ey).
Qed.
End Fmt.

Lemma all_positive_ok a : all_positive a = true <-> positive_array a.
Proof. destruct a as [l|l]; [exact (positive_ok 24 128 Hp32 He32 l)|exact (positive_ok 53 1024 Hp64 He64 l)]. Qed.
Lemma ascending_ok a : ascending a = true <-> increasing_array a.
Proof. destruct a as [l|l]; [exact (increasing_ok 24 128 Hp32 He32 l)|exact (increasing_ok 53 1024 Hp64 He64 l)]. Qed.
Lemma same_type_ok a b : dtype_eqb (dtype_of a) (dtype_of b) = true <-> same_type a b.
Proof. destruct a, b; cbn; intuition congruence. Qed.
Lemma fields_ok fam lin : has_fields fam lin = true <-> right_flag fam lin.
Proof. destruct fam, lin; cbn; intuition congruence. Qed.
Lemma asize_ok a : asize a = size_of a.
Proof. destruct a; reflexivity. Qed.
Lemma limit_ok fam : maxdims fam = axes_limit fam.
Proof. destruct fam; reflexivity. Qed.

Lemma regular_valid_ok fam m :
  has_fields fam (rm_lin m) && regular_valid fam m = true <-> regular_accepted fam m.
Proof.
  unfold regular_valid, regular_accepted. cbv zeta. rewrite !andb_true_iff, fields_ok, all_positive_ok, same_type_ok, !asize_ok, limit_ok.
  rewrite !Nat.leb_le, !Nat.eqb_eq, Z.eqb_eq. change (py_prod (rm_dims m)) with (product (rm_dims m)).
  destruct fam.
  - intuition congruence.
  - rewrite same_type_ok. intuition congruence.
  - intuition congruence.
Qed.
Lemma rectilinear_valid_ok fam m :
  has_fields fam (cm_lin m) && rectilinear_valid fam m = true <-> rectilinear_accepted fam m.
Proof.
  unfold rectilinear_valid, rectilinear_accepted. cbv zeta. rewrite !andb_true_iff, fields_ok, limit_ok.
  rewrite !Nat.leb_le, Z.eqb_eq, !forallb_forall, !Forall_forall, asize_ok.
  assert (E : map (fun g => Z.of_nat (asize g)) (cm_grids m) = map (fun g => Z.of_nat (size_of g)) (cm_grids m)).
  { apply map_ext. intros g. apply f_equal. apply asize_ok. }
  rewrite E. clear E.
  change py_prod with product.
  split.
  - intros (A & (((B & C) & D) & E) & F). repeat split; auto; intros g Hg; [apply ascending_ok|apply same_type_ok]; auto.
  - intros (A & (B & C) & D & E & F). repeat split; auto; intros g Hg; [apply ascending_ok|apply same_type_ok]; auto.
Qed.

Lemma make_regular_iff fam m :
  (regular_accepted fam m -> make_regular fam m = Ret m) /\
  (~ regular_accepted fam m -> make_regular fam m = Raise ValidationError).
Proof.
  unfold make_regular. rewrite <- regular_valid_ok. destruct (_ && _)%bool; split; intros H; try reflexivity; [destruct (H eq_refl)|discriminate H].
Qed.
Lemma make_rectilinear_iff fam m :
  (rectilinear_accepted fam m -> make_rectilinear fam m = Ret m) /\
  (~ rectilinear_accepted fam m -> make_rectilinear fam m = Raise ValidationError).
Proof.
  unfold make_rectilinear. rewrite <- rectilinear_valid_ok. destruct (_ && _)%bool; split; intros H; try reflexivity; [destruct (H eq_refl)|discriminate H].
Qed.
Lemma regular_objects fam m : regular_object fam m <-> regular_accepted fam m.
Proof.
  split.
  - intros H. apply regular_object_made in H. destruct (make_regular_inv _ _ _ H) as (_ & A & B).
    apply regular_valid_ok. rewrite A, B. reflexivity.
  - intros H. exact (reg_made fam m m (proj1 (make_regular_iff fam m) H)).
Qed.
Lemma rectilinear_objects fam m : rectilinear_object fam m <-> rectilinear_accepted fam m.
Proof.
  split.
  - intros H. apply rectilinear_object_made in H. destruct (make_rectilinear_inv _ _ _ H) as (_ & A & B).
    apply rectilinear_valid_ok. rewrite A, B. reflexivity.
  - intros H. exact (rect_made fam m m (proj1 (make_rectilinear_iff fam m) H)).
Qed.
