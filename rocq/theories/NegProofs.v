(** Negating the data negates the result: the arithmetic. *)
From Coq Require Import Reals Lra ZArith Bool ZifyBool Psatz.
From Flocq Require Import Core.Core Relative IEEE754.BinarySingleNaN.
From Verif Require Import Base Ops FInst SpecUnits FLemmas.
Unset Implicit Arguments.
Open Scope R_scope.

Section B.
Variables prec emax : Z.
Context (Hp : Prec_gt_0 prec) (He : Prec_lt_emax prec emax).
Notation fl := (binary_float prec emax).
Notation o := (BOps Hp He).
Notation rnd := (rnd prec emax).
Notation fin x := (is_finite x = true).
Notation bp := (bpow radix2).

Lemma rnd_opp x : rnd (- x) = - rnd x.
Proof. unfold FLemmas.rnd. apply round_NE_opp. Qed.

Inductive neg (a b : fl) : Prop :=
| neg_nan : a = B754_nan -> b = B754_nan -> neg a b
| neg_inf s : a = B754_infinity s -> b = B754_infinity (negb s) -> neg a b
| neg_fin : fin a -> fin b -> B2R b = - B2R a -> neg a b.

Lemma negation_neg a b : negation a b <-> neg a b.
Proof.
  split.
  - intros [(A & B)|H].
    + apply neg_nan; [destruct a|destruct b]; simpl in *; congruence.
    + destruct (is_finite a) eqn:Fa, (is_finite b) eqn:Fb.
      * apply neg_fin; auto. rewrite Beqb_correct in H by (auto; rewrite is_finite_Bopp; auto).
        rewrite B2R_Bopp in H. destruct (Req_bool_spec (B2R b) (- B2R a)) as [E|E]; [exact E|discriminate H].
      * destruct b as [|[]| |]; try discriminate Fb; destruct a as [|[]| |]; try discriminate Fa; discriminate H.
      * destruct a as [|[]| |]; try discriminate Fa; destruct b as [|[]| |sb]; try discriminate Fb; try discriminate H; destruct sb; discriminate H.
      * destruct a as [|[]| |]; try discriminate Fa; destruct b as [|[]| |]; try discriminate Fb; try discriminate H;
          eapply neg_inf; reflexivity.
  - intros [-> ->|s -> ->|Fa Fb V].
    + left. auto.
    + right. destruct s; reflexivity.
    + right. rewrite Beqb_correct by (auto; rewrite is_finite_Bopp; auto). rewrite B2R_Bopp, V.
      apply Req_bool_true. reflexivity.
Qed.

Lemma neg_sign (a b : fl) : fin a -> fin b -> B2R b = - B2R a -> B2R a <> 0 -> Bsign b = negb (Bsign a).
Proof.
  intros Fa Fb V Z0.
  assert (S : forall v : fl, fin v -> B2R v <> 0 -> Bsign v = Rlt_bool (B2R v) 0).
  { intros v Fv Zv. destruct v as [| | |s m e B]; simpl in *; try discriminate; try (exfalso; apply Zv; reflexivity).
    destruct s; simpl.
    - symmetry. apply Rlt_bool_true. apply F2R_lt_0. reflexivity.
    - symmetry. apply Rlt_bool_false. apply F2R_ge_0. simpl. lia. }
  rewrite (S a Fa Z0), (S b Fb) by (rewrite V; lra). rewrite V.
  destruct (Rlt_bool_spec (- B2R a) 0), (Rlt_bool_spec (B2R a) 0); auto; lra.
Qed.

Lemma not_overflow (v : fl) : Rabs (B2R v) < bp emax.
Proof. apply abs_B2R_lt_emax. Qed.

Lemma inf_of_overflow (v : fl) s : B2SF v = binary_overflow prec emax mode_NE s -> v = B754_infinity s.
Proof. unfold binary_overflow. simpl. intros H. destruct v; simpl in H; try discriminate; inversion H; reflexivity. Qed.

Lemma neg_sub a a' b b' : neg a a' -> neg b b' -> neg (fsub o a b) (fsub o a' b').
Proof.
  intros Ha Hb. change (fsub o) with (Bminus (prec := prec) (emax := emax) mode_NE).
  destruct Ha as [-> ->|s -> ->|Fa Fa' Va].
  - apply neg_nan; [destruct b|destruct b']; reflexivity.
  - destruct Hb as [-> ->|t -> ->|Fb Fb' Vb].
    + apply neg_nan; reflexivity.
    + destruct s, t; simpl; try (apply neg_nan; reflexivity); eapply neg_inf; reflexivity.
    + destruct b; try discriminate Fb; destruct b'; try discriminate Fb'; eapply neg_inf; reflexivity.
  - destruct Hb as [-> ->|t -> ->|Fb Fb' Vb].
    + destruct a; try discriminate Fa; destruct a'; try discriminate Fa'; apply neg_nan; reflexivity.
    + destruct a; try discriminate Fa; destruct a'; try discriminate Fa'; simpl; eapply neg_inf; reflexivity.
    + assert (C := Bminus_correct prec emax Hp He mode_NE a b Fa Fb).
      assert (D := Bminus_correct prec emax Hp He mode_NE a' b' Fa' Fb').
      change (round radix2 (SpecFloat.fexp prec emax) (round_mode mode_NE)) with rnd in C, D.
      replace (B2R a' - B2R b') with (- (B2R a - B2R b)) in D by (rewrite Va, Vb; ring).
      rewrite rnd_opp, Rabs_Ropp in D. destruct (Rlt_bool_spec (Rabs (rnd (B2R a - B2R b))) (bp emax)) as [L|L].
      * destruct C as (C1 & C2 & _). destruct D as (D1 & D2 & _). apply neg_fin; auto. rewrite C1, D1. reflexivity.
      * destruct C as (C1 & _). destruct D as (D1 & _). apply inf_of_overflow in C1. apply inf_of_overflow in D1.
        eapply neg_inf; [exact C1|]. rewrite D1. f_equal. apply neg_sign; auto. intros Z0.
        rewrite Z0 in L. replace (0 - B2R b) with (- B2R b) in L by ring. rewrite rnd_opp, Rabs_Ropp, rnd_id in L.
        assert (Q := not_overflow b). lra.
Qed.

Lemma neg_add a a' b b' : neg a a' -> neg b b' -> neg (fadd o a b) (fadd o a' b').
Proof.
  intros Ha Hb. change (fadd o) with (Bplus (prec := prec) (emax := emax) mode_NE).
  destruct Ha as [-> ->|s -> ->|Fa Fa' Va].
  - apply neg_nan; [destruct b|destruct b']; reflexivity.
  - destruct Hb as [-> ->|t -> ->|Fb Fb' Vb].
    + apply neg_nan; reflexivity.
    + destruct s, t; simpl; try (apply neg_nan; reflexivity); eapply neg_inf; reflexivity.
    + destruct b; try discriminate Fb; destruct b'; try discriminate Fb'; eapply neg_inf; reflexivity.
  - destruct Hb as [-> ->|t -> ->|Fb Fb' Vb].
    + destruct a; try discriminate Fa; destruct a'; try discriminate Fa'; apply neg_nan; reflexivity.
    + destruct a; try discriminate Fa; destruct a'; try discriminate Fa'; simpl; eapply neg_inf; reflexivity.
    + assert (C := Bplus_correct prec emax Hp He mode_NE a b Fa Fb).
      assert (D := Bplus_correct prec emax Hp He mode_NE a' b' Fa' Fb').
      change (round radix2 (SpecFloat.fexp prec emax) (round_mode mode_NE)) with rnd in C, D.
      replace (B2R a' + B2R b') with (- (B2R a + B2R b)) in D by (rewrite Va, Vb; ring).
      rewrite rnd_opp, Rabs_Ropp in D. destruct (Rlt_bool_spec (Rabs (rnd (B2R a + B2R b))) (bp emax)) as [L|L].
      * destruct C as (C1 & C2 & _). destruct D as (D1 & D2 & _). apply neg_fin; auto. rewrite C1, D1. reflexivity.
      * destruct C as (C1 & _). destruct D as (D1 & _). apply inf_of_overflow in C1. apply inf_of_overflow in D1.
        eapply neg_inf; [exact C1|]. rewrite D1. f_equal. apply neg_sign; auto. intros Z0.
        rewrite Z0 in L. replace (0 + B2R b) with (B2R b) in L by ring. rewrite rnd_id in L.
        assert (Q := not_overflow b). lra.
Qed.

Lemma neg_opp a a' : neg a a' -> neg (fneg o a) (fneg o a').
Proof.
  cbn [fneg BOps]. intros [-> ->|s -> ->|Fa Fa' Va].
  - apply neg_nan; reflexivity.
  - eapply neg_inf; reflexivity.
  - apply neg_fin; rewrite ?is_finite_Bopp, ?B2R_Bopp; auto. rewrite Va. ring.
Qed.

Lemma neg_zero_cases (a a' : fl) : fin a -> fin a' -> B2R a' = - B2R a ->
  (exists s s', a = B754_zero s /\ a' = B754_zero s') \/
  (exists s m e B m' e' B', a = B754_finite s m e B /\ a' = B754_finite (negb s) m' e' B').
Proof.
  intros Fa Fa' V. destruct (Req_dec (B2R a) 0) as [Z0|Z0].
  - left. assert (Q : forall v : fl, fin v -> B2R v = 0 -> exists s, v = B754_zero s).
    { intros v Fv H. destruct v as [s| | |s m e B]; simpl in *; try discriminate; eauto.
      exfalso. destruct s; simpl in H; [apply (Rlt_not_eq _ _ (F2R_lt_0 radix2 (Float radix2 (Z.neg m) e) eq_refl) H)
        |apply (Rgt_not_eq _ _ (F2R_gt_0 radix2 (Float radix2 (Z.pos m) e) eq_refl) H)]. }
    destruct (Q a Fa Z0) as (s & ->). destruct (Q a' Fa') as (s' & ->); [rewrite V, Z0; ring|]. eauto.
  - right. assert (S := neg_sign a a' Fa Fa' V Z0).
    destruct a as [| | |s m e B]; try discriminate Fa; [exfalso; apply Z0; reflexivity|].
    destruct a' as [| | |s' m' e' B']; try discriminate Fa'.
    + exfalso. apply Z0. simpl in V |- *. lra.
    + simpl in S. subst s'. eauto 10.
Qed.

(** Products and quotients with an operand that does not change. *)
Lemma neg_mul_l t a a' : neg a a' -> neg (fmul o t a) (fmul o t a').
Proof.
  intros Ha. change (fmul o) with (Bmult (prec := prec) (emax := emax) mode_NE).
  destruct Ha as [-> ->|s -> ->|Fa Fa' Va].
  - apply neg_nan; destruct t; reflexivity.
  - destruct t as [u|u| |u m e B]; simpl; try (apply neg_nan; reflexivity); eapply neg_inf; try reflexivity; destruct u, s; reflexivity.
  - destruct (is_finite t) eqn:Ft.
    + assert (C := Bmult_correct prec emax Hp He mode_NE t a). assert (D := Bmult_correct prec emax Hp He mode_NE t a').
      change (round radix2 (SpecFloat.fexp prec emax) (round_mode mode_NE)) with rnd in C, D.
      replace (B2R t * B2R a') with (- (B2R t * B2R a)) in D by (rewrite Va; ring).
      rewrite rnd_opp, Rabs_Ropp in D. destruct (Rlt_bool_spec (Rabs (rnd (B2R t * B2R a))) (bp emax)) as [L|L].
      * destruct C as (C1 & C2 & _). destruct D as (D1 & D2 & _). rewrite Ft, Fa in C2. rewrite Ft, Fa' in D2.
        apply neg_fin; auto. rewrite C1, D1. reflexivity.
      * apply inf_of_overflow in C. apply inf_of_overflow in D. eapply neg_inf; [exact C|]. rewrite D. f_equal.
        rewrite (neg_sign a a'); auto; [destruct (Bsign t), (Bsign a); reflexivity|]. intros Z0.
        rewrite Z0, Rmult_0_r, rnd_0, Rabs_R0 in L. assert (Q := bpow_gt_0 radix2 emax). lra.
    + destruct t as [u|u| |u m e B]; try discriminate Ft.
      * destruct (neg_zero_cases a a' Fa Fa' Va) as [(s & s' & -> & ->)|(s & m & e & B & m' & e' & B' & -> & ->)];
          [apply neg_nan; reflexivity|]. simpl. eapply neg_inf; try reflexivity. destruct u, s; reflexivity.
      * apply neg_nan; [destruct a|destruct a']; reflexivity.
Qed.

Lemma neg_mul_r a a' t : neg a a' -> neg (fmul o a t) (fmul o a' t).
Proof.
  intros Ha. change (fmul o) with (Bmult (prec := prec) (emax := emax) mode_NE).
  destruct Ha as [-> ->|s -> ->|Fa Fa' Va].
  - apply neg_nan; destruct t; reflexivity.
  - destruct t as [u|u| |u m e B]; simpl; try (apply neg_nan; reflexivity); eapply neg_inf; try reflexivity; destruct u, s; reflexivity.
  - destruct (is_finite t) eqn:Ft.
    + assert (C := Bmult_correct prec emax Hp He mode_NE a t). assert (D := Bmult_correct prec emax Hp He mode_NE a' t).
      change (round radix2 (SpecFloat.fexp prec emax) (round_mode mode_NE)) with rnd in C, D.
      replace (B2R a' * B2R t) with (- (B2R a * B2R t)) in D by (rewrite Va; ring).
      rewrite rnd_opp, Rabs_Ropp in D. destruct (Rlt_bool_spec (Rabs (rnd (B2R a * B2R t))) (bp emax)) as [L|L].
      * destruct C as (C1 & C2 & _). destruct D as (D1 & D2 & _). rewrite Ft, Fa in C2. rewrite Ft, Fa' in D2.
        apply neg_fin; auto. rewrite C1, D1. reflexivity.
      * apply inf_of_overflow in C. apply inf_of_overflow in D. eapply neg_inf; [exact C|]. rewrite D. f_equal.
        rewrite (neg_sign a a'); auto; [destruct (Bsign t), (Bsign a); reflexivity|]. intros Z0.
        rewrite Z0, Rmult_0_l, rnd_0, Rabs_R0 in L. assert (Q := bpow_gt_0 radix2 emax). lra.
    + destruct t as [u|u| |u m e B]; try discriminate Ft.
      * destruct (neg_zero_cases a a' Fa Fa' Va) as [(s & s' & -> & ->)|(s & m & e & B & m' & e' & B' & -> & ->)];
          [apply neg_nan; reflexivity|]. simpl. eapply neg_inf; try reflexivity. destruct u, s; reflexivity.
      * apply neg_nan; [destruct a|destruct a']; reflexivity.
Qed.

Lemma neg_div a a' t : neg a a' -> neg (fdiv o a t) (fdiv o a' t).
Proof.
  intros Ha. change (fdiv o) with (Bdiv (prec := prec) (emax := emax) mode_NE).
  destruct Ha as [-> ->|s -> ->|Fa Fa' Va].
  - apply neg_nan; destruct t; reflexivity.
  - destruct t as [u|u| |u m e B]; simpl; try (apply neg_nan; reflexivity); eapply neg_inf; try reflexivity; destruct u, s; reflexivity.
  - destruct (Req_dec (B2R t) 0) as [T0|T0].
    + destruct t as [u|u| |u m e B].
      * destruct (neg_zero_cases a a' Fa Fa' Va) as [(s & s' & -> & ->)|(s & m & e & B & m' & e' & B' & -> & ->)];
          [apply neg_nan; reflexivity|]. simpl. eapply neg_inf; try reflexivity. destruct u, s; reflexivity.
      * destruct (neg_zero_cases a a' Fa Fa' Va) as [(s & s' & -> & ->)|(s & m & e & B & m' & e' & B' & -> & ->)];
          apply neg_fin; try reflexivity; simpl; ring.
      * apply neg_nan; [destruct a|destruct a']; reflexivity.
      * exfalso. destruct u; simpl in T0; [apply (Rlt_not_eq _ _ (F2R_lt_0 radix2 (Float radix2 (Z.neg m) e) eq_refl) T0)
          |apply (Rgt_not_eq _ _ (F2R_gt_0 radix2 (Float radix2 (Z.pos m) e) eq_refl) T0)].
    + assert (C := Bdiv_correct prec emax Hp He mode_NE a t T0). assert (D := Bdiv_correct prec emax Hp He mode_NE a' t T0).
      change (round radix2 (SpecFloat.fexp prec emax) (round_mode mode_NE)) with rnd in C, D.
      replace (B2R a' / B2R t) with (- (B2R a / B2R t)) in D by (rewrite Va; field; auto).
      rewrite rnd_opp, Rabs_Ropp in D. destruct (Rlt_bool_spec (Rabs (rnd (B2R a / B2R t))) (bp emax)) as [L|L].
      * destruct C as (C1 & C2 & _). destruct D as (D1 & D2 & _). rewrite Fa in C2. rewrite Fa' in D2.
        apply neg_fin; auto. rewrite C1, D1. reflexivity.
      * apply inf_of_overflow in C. apply inf_of_overflow in D. eapply neg_inf; [exact C|]. rewrite D. f_equal.
        rewrite (neg_sign a a'); auto; [destruct (Bsign t), (Bsign a); reflexivity|]. intros Z0.
        rewrite Z0 in L. unfold Rdiv in L. rewrite Rmult_0_l, rnd_0, Rabs_R0 in L. assert (Q := bpow_gt_0 radix2 emax). lra.
Qed.

Lemma neg_cases (a a' : fl) : neg a a' ->
  (a = B754_nan /\ a' = B754_nan) \/
  (exists s, a = B754_infinity s /\ a' = B754_infinity (negb s)) \/
  (exists s s', a = B754_zero s /\ a' = B754_zero s') \/
  (exists s m e B m' e' B', a = B754_finite s m e B /\ a' = B754_finite (negb s) m' e' B').
Proof.
  intros [H H'|s H H'|Fa Fa' V]; eauto. right. right. apply neg_zero_cases; auto.
Qed.

Ltac neg_special := first
  [ apply neg_nan; reflexivity
  | eapply neg_inf; reflexivity
  | apply neg_fin; [reflexivity|reflexivity|simpl; ring] ].
Ltac neg_split H := apply neg_cases in H as
  [(-> & ->)|[(? & -> & ->)|[(? & ? & -> & ->)|(? & ? & ? & ? & ? & ? & ? & -> & ->)]]].

Lemma neg_fma_fin t a a' b b' : fin t -> fin a -> fin a' -> B2R a' = - B2R a -> fin b -> fin b' -> B2R b' = - B2R b ->
  neg (Bfma mode_NE t a b) (Bfma mode_NE t a' b') /\ neg (Bfma mode_NE a t b) (Bfma mode_NE a' t b').
Proof.
  intros Ft Fa Fa' Va Fb Fb' Vb.
  assert (K : forall u v w u' v' w' : fl, fin u -> fin v -> fin w -> fin u' -> fin v' -> fin w' ->
    B2R u' * B2R v' + B2R w' = - (B2R u * B2R v + B2R w) -> neg (Bfma mode_NE u v w) (Bfma mode_NE u' v' w')).
  { intros u v w u' v' w' Fu Fv Fw Fu' Fv' Fw' E.
    assert (C := Bfma_correct prec emax Hp He mode_NE u v w Fu Fv Fw).
    assert (D := Bfma_correct prec emax Hp He mode_NE u' v' w' Fu' Fv' Fw'). cbv zeta in C, D.
    change (round radix2 (SpecFloat.fexp prec emax) (round_mode mode_NE)) with rnd in C, D. rewrite E in D.
    rewrite rnd_opp, Rabs_Ropp in D.
    destruct (Rlt_bool_spec (Rabs (rnd (B2R u * B2R v + B2R w))) (bp emax)) as [L|L].
    - destruct C as (C1 & C2 & _). destruct D as (D1 & D2 & _). apply neg_fin; auto. rewrite C1, D1. reflexivity.
    - apply inf_of_overflow in C. apply inf_of_overflow in D. eapply neg_inf; [exact C|]. rewrite D. f_equal.
      assert (N : B2R u * B2R v + B2R w <> 0).
      { intros Z0. rewrite Z0, rnd_0, Rabs_R0 in L. assert (Q := bpow_gt_0 radix2 emax). lra. }
      destruct (Rlt_bool_spec (- (B2R u * B2R v + B2R w)) 0), (Rlt_bool_spec (B2R u * B2R v + B2R w) 0); auto; lra. }
  split; apply K; auto; rewrite Va, Vb; ring.
Qed.

Lemma neg_fma_cv t a a' b b' : neg a a' -> neg b b' -> neg (fmuladd o t a b) (fmuladd o t a' b').
Proof.
  intros Ha Hb. change (fmuladd o) with (Bfma (prec := prec) (emax := emax) mode_NE).
  assert (G : fin t /\ (fin a /\ fin a' /\ B2R a' = - B2R a) /\ (fin b /\ fin b' /\ B2R b' = - B2R b) \/
    (is_finite t && is_finite a && is_finite b)%bool = false).
  { destruct (is_finite t) eqn:Ft; [|auto]. destruct (is_finite a) eqn:Fa; [|auto]. destruct (is_finite b) eqn:Fb; [|auto].
    left. split; auto. destruct Ha as [-> ->|s -> ->|? ? ?]; try discriminate Fa.
    destruct Hb as [-> ->|s -> ->|? ? ?]; try discriminate Fb. auto. }
  destruct G as [(Ft & (Fa & Fa' & Va) & Fb & Fb' & Vb)|G]; [apply neg_fma_fin; auto|].
  neg_split Ha; neg_split Hb; destruct t as [u|u| |u ? ? ?]; try discriminate G; simpl;
    repeat match goal with b : bool |- _ => destruct b end; neg_special.
Qed.

Lemma neg_fma_vc a a' t b b' : neg a a' -> neg b b' -> neg (fmuladd o a t b) (fmuladd o a' t b').
Proof.
  intros Ha Hb. change (fmuladd o) with (Bfma (prec := prec) (emax := emax) mode_NE).
  assert (G : fin t /\ (fin a /\ fin a' /\ B2R a' = - B2R a) /\ (fin b /\ fin b' /\ B2R b' = - B2R b) \/
    (is_finite t && is_finite a && is_finite b)%bool = false).
  { destruct (is_finite t) eqn:Ft; [|auto]. destruct (is_finite a) eqn:Fa; [|auto]. destruct (is_finite b) eqn:Fb; [|auto].
    left. split; auto. destruct Ha as [-> ->|s -> ->|? ? ?]; try discriminate Fa.
    destruct Hb as [-> ->|s -> ->|? ? ?]; try discriminate Fb. auto. }
  destruct G as [(Ft & (Fa & Fa' & Va) & Fb & Fb' & Vb)|G]; [apply neg_fma_fin; auto|].
  neg_split Ha; neg_split Hb; destruct t as [u|u| |u ? ? ?]; try discriminate G; simpl;
    repeat match goal with b : bool |- _ => destruct b end; neg_special.
Qed.
End B.
