(** Multiplying all coordinates of an axis by a power of two changes no bit of the result. *)
From Coq Require Import Reals Lra ZArith Bool ZifyBool Psatz.
From Flocq Require Import Core.Core Relative IEEE754.BinarySingleNaN.
From Verif Require Import Base Ops FInst ModelCore ModelLinear ModelCubic ModelNearest Spec SpecIEEE SpecUnits
  CoreLemmas TensorLemmas MethodChar GenLemmas FLemmas FCubicRect.
Unset Implicit Arguments.
Open Scope list_scope.
Open Scope R_scope.

Section B.
Variables prec emax : Z.
Context (Hp : Prec_gt_0 prec) (He : Prec_lt_emax prec emax).
Notation fl := (binary_float prec emax).
Notation o := (BOps Hp He).
Notation emin := (3 - emax - prec)%Z.
Notation fexp := (FLT_exp emin prec).
Notation rnd := (rnd prec emax).
Notation fin x := (is_finite x = true).
Notation bp := (bpow radix2).

#[local] Instance fexp_valid' : Valid_exp fexp.
Proof. apply FLT_exp_valid; auto. Qed.

Definition multiple (x : R) : Prop := exists m : Z, x = IZR m * bp emin.

Lemma multiple_B2R (v : fl) : multiple (B2R v).
Proof.
  assert (G := generic_format_B2R prec emax v). change (SpecFloat.fexp prec emax) with fexp in G.
  unfold generic_format in G. set (e := cexp radix2 fexp (B2R v)) in G.
  assert (Ee : (emin <= e)%Z) by (unfold e, cexp, FLT_exp; lia).
  exists (Ztrunc (scaled_mantissa radix2 fexp (B2R v)) * 2 ^ (e - emin))%Z.
  rewrite G at 1. unfold F2R. cbn [Fnum Fexp]. rewrite mult_IZR.
  change 2%Z with (radix_val radix2). rewrite IZR_Zpower by lia.
  rewrite Rmult_assoc, <- bpow_plus. f_equal. f_equal. lia.
Qed.

Lemma multiple_plus x y : multiple x -> multiple y -> multiple (x + y).
Proof. intros (m & ->) (n & ->). exists (m + n)%Z. rewrite plus_IZR. ring. Qed.
Lemma multiple_minus x y : multiple x -> multiple y -> multiple (x - y).
Proof. intros (m & ->) (n & ->). exists (m - n)%Z. rewrite minus_IZR. ring. Qed.
Lemma multiple_times x n : multiple x -> multiple (x * IZR n).
Proof. intros (m & ->). exists (m * n)%Z. rewrite mult_IZR. ring. Qed.

Lemma rnd_scale_up x k : (0 <= k)%Z -> multiple x -> rnd (x * bp k) = rnd x * bp k.
Proof.
  intros Hk (m & Hx). assert (P0 : (0 < prec)%Z) by exact Hp.
  destruct (Z_lt_le_dec (Z.abs m) (2 ^ prec)) as [L|L].
  - assert (G : generic_format radix2 fexp x).
    { apply generic_format_FLT. exists (Float radix2 m emin); [exact Hx|exact L|cbn [Fexp]; lia]. }
    assert (G' : generic_format radix2 fexp (x * bp k)).
    { apply generic_format_FLT. exists (Float radix2 m (emin + k)); [|exact L|cbn [Fexp]; lia].
      unfold F2R. cbn [Fnum Fexp]. rewrite Hx, bpow_plus. ring. }
    unfold FLemmas.rnd. rewrite !round_generic; auto; try typeclasses eauto.
  - assert (Xn : x <> 0).
    { rewrite Hx. apply Rmult_integral_contrapositive. split; [|apply Rgt_not_eq, bpow_gt_0].
      apply IZR_neq. assert (0 < 2 ^ prec)%Z by (apply Z.pow_pos_nonneg; lia). lia. }
    assert (M : (emin + prec + 1 <= mag radix2 x)%Z).
    { replace (emin + prec + 1)%Z with ((emin + prec) + 1)%Z by lia. apply Zlt_le_succ. apply mag_gt_bpow.
      rewrite Hx, Rabs_mult, (Rabs_pos_eq (bp emin)) by apply bpow_ge_0. rewrite <- abs_IZR.
      replace (emin + prec)%Z with (prec + emin)%Z by lia. rewrite bpow_plus.
      apply Rmult_le_compat_r; [apply bpow_ge_0|].
      rewrite <- IZR_Zpower by lia. apply IZR_le. exact L. }
    unfold FLemmas.rnd, round, scaled_mantissa, cexp. rewrite mag_mult_bpow by auto.
    assert (E1 : fexp (mag radix2 x) = (mag radix2 x - prec)%Z) by (unfold FLT_exp; lia).
    assert (E2 : fexp (mag radix2 x + k) = (mag radix2 x - prec + k)%Z) by (unfold FLT_exp; lia).
    rewrite E1, E2. unfold F2R. cbn [Fnum Fexp].
    replace (x * bp k * bp (- (mag radix2 x - prec + k))) with (x * bp (- (mag radix2 x - prec))).
    2:{ rewrite Rmult_assoc, <- bpow_plus. f_equal. f_equal. lia. }
    rewrite (bpow_plus _ (mag radix2 x - prec) k). ring.
Qed.

(** Rounding commutes with a power of two as long as both numbers are whole multiples of the
    smallest positive number. *)
Lemma rnd_scale x k : multiple x -> multiple (x * bp k) -> rnd (x * bp k) = rnd x * bp k.
Proof.
  intros H1 H2. destruct (Z_le_gt_dec 0 k) as [K|K]; [apply rnd_scale_up; auto|].
  assert (E : rnd (x * bp k * bp (- k)) = rnd (x * bp k) * bp (- k)) by (apply rnd_scale_up; auto; lia).
  replace (x * bp k * bp (- k)) with x in E.
  2:{ rewrite Rmult_assoc, <- bpow_plus. replace (k + - k)%Z with 0%Z by lia. simpl. ring. }
  rewrite E, Rmult_assoc, <- bpow_plus. replace (- k + k)%Z with 0%Z by lia. simpl. ring.
Qed.

Lemma rnd_small x e : (emin <= e < emax)%Z -> Rabs x <= bp e -> Rabs (rnd x) < bp emax.
Proof.
  intros E H. apply Rle_lt_trans with (bp e); [|apply bpow_lt; lia].
  apply abs_round_le_generic; try typeclasses eauto; auto.
  apply generic_format_bpow. unfold FLT_exp. assert (0 < prec)%Z by exact Hp. lia.
Qed.
Lemma rnd_bound x e : (emin <= e)%Z -> Rabs x <= bp e -> Rabs (rnd x) <= bp e.
Proof.
  intros E H. apply abs_round_le_generic; try typeclasses eauto; auto.
  apply generic_format_bpow. unfold FLT_exp. assert (0 < prec)%Z by exact Hp. lia.
Qed.

Lemma bp_emax_big : (3 <= emax)%Z -> (emin <= emax - 4)%Z.
Proof. assert (0 < prec)%Z by exact Hp. unfold Prec_lt_emax in He. lia. Qed.

Lemma Rcompare_scale x k : Rcompare (x * bp k) 0 = Rcompare x 0.
Proof.
  replace 0 with (0 * bp k) at 1 by ring. apply Rcompare_mult_r. apply bpow_gt_0.
Qed.

Lemma rescaled_sub k a a' b b' : rescaled k a a' -> rescaled k b b' ->
  Rabs (rnd (B2R a - B2R b)) < bp emax -> Rabs (rnd (B2R a' - B2R b')) < bp emax ->
  rescaled k (fsub o a b) (fsub o a' b').
Proof.
  intros (Fa & Fa' & Va & Sa) (Fb & Fb' & Vb & Sb) L L'.
  assert (C := Bminus_correct prec emax Hp He mode_NE a b Fa Fb).
  assert (C' := Bminus_correct prec emax Hp He mode_NE a' b' Fa' Fb').
  change (round radix2 (SpecFloat.fexp prec emax) (round_mode mode_NE)) with rnd in C, C'.
  rewrite Rlt_bool_true in C by exact L. rewrite Rlt_bool_true in C' by exact L'.
  destruct C as (C1 & C2 & C3). destruct C' as (D1 & D2 & D3).
  assert (ED : B2R a' - B2R b' = (B2R a - B2R b) * bp k) by (rewrite Va, Vb; ring).
  change (fsub o) with (Bminus (prec := prec) (emax := emax) mode_NE).
  split; [exact C2|]. split; [exact D2|]. split.
  - rewrite C1, D1, ED. apply rnd_scale; [|rewrite <- ED]; apply multiple_minus; apply multiple_B2R.
  - rewrite C3, D3, ED, Rcompare_scale, Sa, Sb. reflexivity.
Qed.

Lemma rescaled_add k a a' b b' : rescaled k a a' -> rescaled k b b' ->
  Rabs (rnd (B2R a + B2R b)) < bp emax -> Rabs (rnd (B2R a' + B2R b')) < bp emax ->
  rescaled k (fadd o a b) (fadd o a' b').
Proof.
  intros (Fa & Fa' & Va & Sa) (Fb & Fb' & Vb & Sb) L L'.
  assert (C := Bplus_correct prec emax Hp He mode_NE a b Fa Fb).
  assert (C' := Bplus_correct prec emax Hp He mode_NE a' b' Fa' Fb').
  change (round radix2 (SpecFloat.fexp prec emax) (round_mode mode_NE)) with rnd in C, C'.
  rewrite Rlt_bool_true in C by exact L. rewrite Rlt_bool_true in C' by exact L'.
  destruct C as (C1 & C2 & C3). destruct C' as (D1 & D2 & D3).
  assert (ED : B2R a' + B2R b' = (B2R a + B2R b) * bp k) by (rewrite Va, Vb; ring).
  change (fadd o) with (Bplus (prec := prec) (emax := emax) mode_NE).
  split; [exact C2|]. split; [exact D2|]. split.
  - rewrite C1, D1, ED. apply rnd_scale; [|rewrite <- ED]; apply multiple_plus; apply multiple_B2R.
  - rewrite C3, D3, ED, Rcompare_scale, Sa, Sb. reflexivity.
Qed.

(** A product with a whole number. *)
Lemma rescaled_mul k a a' (n : fl) z : rescaled k a a' -> fin n -> B2R n = IZR z ->
  Rabs (rnd (B2R a * B2R n)) < bp emax -> Rabs (rnd (B2R a' * B2R n)) < bp emax ->
  rescaled k (fmul o a n) (fmul o a' n).
Proof.
  intros (Fa & Fa' & Va & Sa) Fn Vn L L'.
  assert (C := Bmult_correct prec emax Hp He mode_NE a n).
  assert (C' := Bmult_correct prec emax Hp He mode_NE a' n).
  change (round radix2 (SpecFloat.fexp prec emax) (round_mode mode_NE)) with rnd in C, C'.
  rewrite Rlt_bool_true in C by exact L. rewrite Rlt_bool_true in C' by exact L'.
  destruct C as (C1 & C2 & C3). destruct C' as (D1 & D2 & D3).
  rewrite Fa, Fn in C2. rewrite Fa', Fn in D2. simpl in C2, D2.
  assert (ED : B2R a' * B2R n = (B2R a * B2R n) * bp k) by (rewrite Va; ring).
  change (fmul o) with (Bmult (prec := prec) (emax := emax) mode_NE).
  split; [exact C2|]. split; [exact D2|]. split.
  - rewrite C1, D1, ED. rewrite Vn in *. apply rnd_scale; [|rewrite <- ED]; apply multiple_times; apply multiple_B2R.
  - rewrite C3, D3, Sa; [reflexivity| |].
    + destruct (Bmult mode_NE a' n); simpl in *; congruence.
    + destruct (Bmult mode_NE a n); simpl in *; congruence.
Qed.

Lemma rescaled_fma k a a' (n : fl) z s s' : rescaled k a a' -> fin n -> B2R n = IZR z -> rescaled k s s' ->
  Rabs (rnd (B2R a * B2R n + B2R s)) < bp emax -> Rabs (rnd (B2R a' * B2R n + B2R s')) < bp emax ->
  rescaled k (fmuladd o a n s) (fmuladd o a' n s').
Proof.
  intros (Fa & Fa' & Va & Sa) Fn Vn (Fs & Fs' & Vs & Ss) L L'.
  assert (C := Bfma_correct prec emax Hp He mode_NE a n s Fa Fn Fs).
  assert (C' := Bfma_correct prec emax Hp He mode_NE a' n s' Fa' Fn Fs'). cbv zeta in C, C'.
  change (round radix2 (SpecFloat.fexp prec emax) (round_mode mode_NE)) with rnd in C, C'.
  rewrite Rlt_bool_true in C by exact L. rewrite Rlt_bool_true in C' by exact L'.
  destruct C as (C1 & C2 & C3). destruct C' as (D1 & D2 & D3).
  assert (ED : B2R a' * B2R n + B2R s' = (B2R a * B2R n + B2R s) * bp k) by (rewrite Va, Vs; ring).
  change (fmuladd o) with (Bfma (prec := prec) (emax := emax) mode_NE).
  split; [exact C2|]. split; [exact D2|]. split.
  - rewrite C1, D1, ED. rewrite Vn in *.
    apply rnd_scale; [|rewrite <- ED]; (apply multiple_plus; [apply multiple_times|]); apply multiple_B2R.
  - rewrite C3, D3, ED, Rcompare_scale. unfold Bfma_szero. rewrite Sa, Ss. reflexivity.
Qed.

Lemma rescaled_opp k a a' : rescaled k a a' -> rescaled k (fneg o a) (fneg o a').
Proof.
  intros (Fa & Fa' & Va & Sa). cbn [fneg BOps]. unfold rescaled. rewrite !is_finite_Bopp, !B2R_Bopp, Va.
  split; [exact Fa|]. split; [exact Fa'|]. split; [ring|].
  rewrite !Bsign_Bopp, Sa; [reflexivity| |]; [destruct a|destruct a']; simpl in *; congruence.
Qed.

Lemma bpow_neq0 k : bp k <> 0.
Proof. apply Rgt_not_eq, bpow_gt_0. Qed.

(** The quotient does not change. *)
Lemma rescaled_div k a a' b b' : rescaled k a a' -> rescaled k b b' -> fdiv o a b = fdiv o a' b'.
Proof.
  intros (Fa & Fa' & Va & Sa) (Fb & Fb' & Vb & Sb).
  change (fdiv o) with (Bdiv (prec := prec) (emax := emax) mode_NE).
  destruct (Req_dec (B2R b) 0) as [Z0|Z0].
  - assert (Z0' : B2R b' = 0) by (rewrite Vb, Z0; ring).
    assert (Q : forall v : fl, fin v -> B2R v = 0 -> v = B754_zero (Bsign v)).
    { intros v Fv H. destruct v as [|[]| |sv mv ev Bv]; simpl in *; try discriminate; auto.
      exfalso. destruct sv; unfold F2R in H; simpl in H;
      apply Rmult_integral in H as [H|H]; try (apply (bpow_neq0 ev H)); apply eq_IZR in H; discriminate H. }
    rewrite (Q b Fb Z0), (Q b' Fb' Z0'), Sb.
    destruct (Req_dec (B2R a) 0) as [Y0|Y0].
    + assert (Y0' : B2R a' = 0) by (rewrite Va, Y0; ring).
      rewrite (Q a Fa Y0), (Q a' Fa' Y0'), Sa. reflexivity.
    + assert (Y0' : B2R a' <> 0).
      { rewrite Va. apply Rmult_integral_contrapositive. split; auto. apply bpow_neq0. }
      destruct a as [| | |sa ma ea Ba]; simpl in Fa; try discriminate Fa; [exfalso; apply Y0; reflexivity|].
      destruct a' as [| | |sa' ma' ea' Ba']; simpl in Fa'; try discriminate Fa'; [exfalso; apply Y0'; reflexivity|].
      simpl in Sa. subst sa'. reflexivity.
  - assert (Z0' : B2R b' <> 0).
    { rewrite Vb. apply Rmult_integral_contrapositive. split; auto. apply bpow_neq0. }
    assert (C := Bdiv_correct prec emax Hp He mode_NE a b Z0).
    assert (C' := Bdiv_correct prec emax Hp He mode_NE a' b' Z0').
    assert (EQ : B2R a' / B2R b' = B2R a / B2R b).
    { rewrite Va, Vb. field. split; auto. apply bpow_neq0. }
    rewrite EQ, Sa, Sb in C'.
    destruct (Rlt_bool _ _).
    + destruct C as (C1 & C2 & C3). destruct C' as (D1 & D2 & D3).
      rewrite Fa in C2. rewrite Fa' in D2.
      apply B2R_Bsign_inj; auto; [congruence|].
      rewrite C3, D3; auto; [destruct (Bdiv mode_NE a' b')|destruct (Bdiv mode_NE a b)]; simpl in *; congruence.
    + apply B2SF_inj. congruence.
Qed.

Lemma rescaled_lt k a a' b b' : rescaled k a a' -> rescaled k b b' -> flt o a b = flt o a' b'.
Proof.
  intros (Fa & Fa' & Va & Sa) (Fb & Fb' & Vb & Sb). cbn [flt BOps].
  rewrite !Bltb_correct by auto. rewrite Va, Vb.
  destruct (Rlt_bool_spec (B2R a) (B2R b)) as [L|L]; symmetry;
    [apply Rlt_bool_true, Rmult_lt_compat_r; auto; apply bpow_gt_0
    |apply Rlt_bool_false, Rmult_le_compat_r; auto; apply bpow_ge_0].
Qed.

Lemma rescaled_zero k : rescaled k (fzero o) (fzero o).
Proof. split; [reflexivity|]. split; [reflexivity|]. split; [cbn; ring|reflexivity]. Qed.

(** The number of a node, converted to floating point, is whole. *)
Lemma uf_whole n d : (64 < emax)%Z -> (0 <= n < d)%Z -> (d <= isize_max)%Z ->
  exists z, fin (uf o n) /\ B2R (uf o n) = IZR z /\ (0 <= z <= 2 * d)%Z.
Proof.
  intros H64 Hn Hd. unfold isize_max in Hd.
  assert (Hpr : (0 < prec)%Z) by exact Hp.
  assert (EF : F2R (Float radix2 n 0) = IZR n) by (unfold F2R; simpl; ring).
  destruct (Z_le_gt_dec n (2 ^ prec)) as [L|L].
  - exists n. destruct (@of_usize_spec prec emax Hp He n (uf o n)) as (F1 & F2); [reflexivity|lia|].
    split; [exact F1|]. split; [exact F2|lia].
  - assert (Mx : (prec < mag radix2 (IZR n))%Z).
    { apply mag_gt_bpow. rewrite <- abs_IZR, <- IZR_Zpower by lia. apply IZR_le. change (radix_val radix2) with 2%Z. lia. }
    assert (N0 : IZR n <> 0) by (apply IZR_neq; assert (0 < 2 ^ prec)%Z by (apply Z.pow_pos_nonneg; lia); lia).
    assert (E0 : fexp (mag radix2 (IZR n)) = (mag radix2 (IZR n) - prec)%Z) by (unfold FLT_exp; unfold Prec_lt_emax in He; lia).
    set (z := (ZnearestE (IZR n * bp (- (mag radix2 (IZR n) - prec))) * 2 ^ (mag radix2 (IZR n) - prec))%Z).
    assert (V : rnd (IZR n) = IZR z).
    { unfold FLemmas.rnd, round, scaled_mantissa, cexp. rewrite E0. unfold F2R, z. cbn [Fnum Fexp].
      rewrite mult_IZR. change 2%Z with (radix_val radix2). rewrite IZR_Zpower by lia. reflexivity. }
    assert (Lo : 0 <= rnd (IZR n)).
    { rewrite <- (rnd_0 prec emax). apply rnd_le; auto. apply IZR_le. lia. }
    assert (Up : rnd (IZR n) <= 2 * IZR n).
    { assert (B := bpow_mag_le radix2 (IZR n) N0). assert (B' := bpow_mag_gt radix2 (IZR n)).
      rewrite Rabs_pos_eq in B, B' by (apply IZR_le; lia).
      apply Rle_trans with (bp (mag radix2 (IZR n))).
      - apply Rle_trans with (Rabs (rnd (IZR n))); [apply Rle_abs|]. apply rnd_bound; [unfold Prec_lt_emax in He; lia|].
        rewrite Rabs_pos_eq by (apply IZR_le; lia). lra.
      - replace (mag radix2 (IZR n) : Z) with (mag radix2 (IZR n) - 1 + 1)%Z by lia. rewrite bpow_plus. simpl (bp 1). lra. }
    assert (Sm : Rabs (rnd (IZR n)) < bp emax).
    { apply rnd_small with 64%Z; [unfold Prec_lt_emax in He; lia|]. rewrite <- abs_IZR.
      change 64%Z with (Z.of_nat 64). rewrite bpow_powerRZ. rewrite <- pow_powerRZ. rewrite pow_IZR. apply IZR_le.
      change (radix_val radix2 ^ Z.of_nat 64)%Z with 18446744073709551616%Z. lia. }
    assert (C := binary_normalize_correct prec emax Hp He mode_NE n 0 false). cbv zeta in C. rewrite EF in C.
    change (round radix2 (SpecFloat.fexp prec emax) (round_mode mode_NE)) with rnd in C.
    rewrite Rlt_bool_true in C by exact Sm. destruct C as (C1 & C2 & _).
    exists z. change (uf o n) with (binary_normalize prec emax Hp He mode_NE n 0 false).
    split; [exact C2|]. split; [congruence|].
    rewrite V in Lo, Up. rewrite <- mult_IZR in Up. apply le_IZR in Lo. apply le_IZR in Up. lia.
Qed.

(** * One axis *)
Lemma each_axis_length A C (P : Z -> A -> C -> Prop) ks l m : each_axis P ks l m ->
  length ks = length l /\ length m = length l.
Proof. induction 1 as [|? ? ? ? ? ? ? ? IH]; simpl; auto. lia. Qed.
Lemma each_axis_nth A C (P : Z -> A -> C -> Prop) ks l m a b : each_axis P ks l m ->
  forall k, (k < length l)%nat -> P (nth k ks 0%Z) (nth k l a) (nth k m b).
Proof.
  induction 1 as [|k0 ks a0 l b0 m H0 H IH]; intros k Hk; simpl in Hk; [lia|].
  destruct k as [|k]; simpl; auto. apply IH. lia.
Qed.
Lemma Forall2_nth_lt A C (P : A -> C -> Prop) l m a b : Forall2 P l m ->
  forall k, (k < length l)%nat -> P (nth k l a) (nth k m b).
Proof.
  induction 1 as [|a0 b0 l m H0 H IH]; intros k Hk; simpl in Hk; [lia|].
  destruct k as [|k]; simpl; auto. apply IH. lia.
Qed.

Lemma pp_of_bits (g : list fl) v : pp_of o g v =
  match partition_point (fun b : bool => b) (map (fun a => flt o a v) g) with Ok z => z | _ => 0%Z end.
Proof.
  unfold pp_of. rewrite (partition_point_map _ _ (fun a => flt o a v) (fun a => flt o a v) (fun b : bool => b) g); auto.
Qed.

Section RectAxis.
Variables (k : Z) (g g' : list fl) (x x' : fl).
Hypothesis Hg : Forall2 (rescaled k) g g'.
Hypothesis Hx : rescaled k x x'.

Lemma axis_len : length g' = length g.
Proof using Hg. clear -Hg. induction Hg; simpl; auto. Qed.
Lemma axis_pp : pp_of o g' x' = pp_of o g x.
Proof using Hg Hx.
  rewrite !pp_of_bits. replace (map (fun a => flt o a x') g') with (map (fun a => flt o a x) g); [reflexivity|].
  clear -Hg Hx. induction Hg as [|a a' l l' H0 H IH]; simpl; [reflexivity|]. f_equal; auto.
  apply (rescaled_lt k); auto.
Qed.
Lemma axis_cell : rect_cell o g' x' = rect_cell o g x.
Proof using Hg Hx. unfold rect_cell, zlen. rewrite axis_pp, axis_len. reflexivity. Qed.

Hypothesis Mg : Forall moderate g.
Hypothesis Mg' : Forall moderate g'.
Hypothesis Mx : moderate x.
Hypothesis Mx' : moderate x'.
Hypothesis He3 : (3 <= emax)%Z.

Lemma moderate_minus (a b : fl) : moderate a -> moderate b -> Rabs (rnd (B2R a - B2R b)) < bp emax.
Proof using He He3 Hp.
  intros (_ & A) (_ & B). assert (0 < prec)%Z by exact Hp. unfold Prec_lt_emax in He.
  apply rnd_small with (emax - 1)%Z; [lia|].
  replace (emax - 1)%Z with (emax - 2 + 1)%Z by lia. rewrite bpow_plus. simpl (bp 1).
  unfold Rminus. assert (T := Rabs_triang (B2R a) (- B2R b)). rewrite Rabs_Ropp in T. lra.
Qed.
Lemma gz_rescaled i : (0 <= i < zlen g)%Z ->
  rescaled k (gz o g i) (gz o g' i) /\ moderate (gz o g i) /\ moderate (gz o g' i).
Proof using Hg Mg Mg'.
  unfold zlen, gz. intros H. assert (L := axis_len). split; [apply Forall2_nth_lt; auto; lia|].
  split; apply Forall_nth_lt; auto; lia.
Qed.
Lemma axis_dtp i : (0 <= i <= zlen g - 2)%Z -> rect_dtp o g' x' i = rect_dtp o g x i.
Proof using Hg Hx Mg Mg' Mx Mx' He3.
  intros H. unfold rect_dtp. symmetry.
  destruct (gz_rescaled i ltac:(lia)) as (R0 & M0 & M0'). destruct (gz_rescaled (i + 1) ltac:(lia)) as (R1 & M1 & M1').
  apply (rescaled_div k); apply rescaled_sub; auto; apply moderate_minus; auto.
Qed.
Lemma axis_ccell : crect_cell o g' x' = crect_cell o g x.
Proof using Hg Hx. unfold crect_cell, zlen. rewrite axis_pp, axis_len. reflexivity. Qed.
Lemma axis_inner c fma lin sat i vs : (0 <= i <= zlen g - 4)%Z ->
  rect_innerp o c fma lin sat x' (cell4 o g' i) vs = rect_innerp o c fma lin sat x (cell4 o g i) vs.
Proof using Hg Hx Mg Mg' Mx Mx' He3.
  intros H. unfold rect_innerp, cell4.
  destruct (gz_rescaled i ltac:(lia)) as (R0 & M0 & M0'). destruct (gz_rescaled (i + 1) ltac:(lia)) as (R1 & M1 & M1').
  destruct (gz_rescaled (i + 2) ltac:(lia)) as (R2 & M2 & M2'). destruct (gz_rescaled (i + 3) ltac:(lia)) as (R3 & M3 & M3').
  set (g0 := gz o g i) in *. set (g1 := gz o g (i + 1)) in *. set (g2 := gz o g (i + 2)) in *. set (g3 := gz o g (i + 3)) in *.
  set (g0' := gz o g' i) in *. set (g1' := gz o g' (i + 1)) in *. set (g2' := gz o g' (i + 2)) in *. set (g3' := gz o g' (i + 3)) in *.
  assert (S01 : rescaled k (fsub o g1 g0) (fsub o g1' g0')) by (apply rescaled_sub; auto; apply moderate_minus; auto).
  assert (S12 : rescaled k (fsub o g2 g1) (fsub o g2' g1')) by (apply rescaled_sub; auto; apply moderate_minus; auto).
  assert (S23 : rescaled k (fsub o g3 g2) (fsub o g3' g2')) by (apply rescaled_sub; auto; apply moderate_minus; auto).
  assert (X1 : rescaled k (fsub o x g1) (fsub o x' g1')) by (apply rescaled_sub; auto; apply moderate_minus; auto).
  assert (X2 : rescaled k (fsub o x g2) (fsub o x' g2')) by (apply rescaled_sub; auto; apply moderate_minus; auto).
  assert (X1o := rescaled_opp _ _ _ X1).
  destruct vs as [|v0 [|v1 [|v2 [|v3 [|]]]]]; try reflexivity. unfold rect_inner. cbv zeta.
  rewrite <- (rescaled_div _ _ _ _ _ S01 S12), <- (rescaled_div _ _ _ _ _ S12 S01), <- (rescaled_div _ _ _ _ _ S23 S12),
    <- (rescaled_div _ _ _ _ _ S12 S23), <- (rescaled_div _ _ _ _ _ X1 S12), <- (rescaled_div _ _ _ _ _ X2 S23),
    <- (rescaled_div _ _ _ _ _ X1o S01). reflexivity.
Qed.
End RectAxis.

Section RegAxis.
Variables (k : Z) (start step start' step' x x' : fl) (d : Z).
Hypothesis Hs : rescaled k start start'.
Hypothesis Hh : rescaled k step step'.
Hypothesis Hx : rescaled k x x'.
Hypothesis Ra : roomy_axis start step d.
Hypothesis Ra' : roomy_axis start' step' d.
Hypothesis Rx : roomy x.
Hypothesis Rx' : roomy x'.
Hypothesis He64 : (64 < emax)%Z.
Hypothesis Hd : (0 < d <= isize_max)%Z.

Notation q := (emax - 4)%Z.
Let Qe : (emin <= q)%Z.
Proof. assert (0 < prec)%Z by exact Hp. unfold Prec_lt_emax in He. lia. Qed.
Let B1 : bp (q + 1) = 2 * bp q.
Proof. rewrite bpow_plus. change (bp 1) with 2. ring. Qed.
Let B2 : bp (q + 2) = 4 * bp q.
Proof. rewrite bpow_plus. change (bp 2) with 4. ring. Qed.
Let B3 : bp (q + 3) = 8 * bp q.
Proof. rewrite bpow_plus. change (bp 3) with 8. ring. Qed.
Let Q0 : 0 < bp q.
Proof. apply bpow_gt_0. Qed.

Let sub_ok (a b : fl) : Rabs (B2R a) <= 7 * bp q -> Rabs (B2R b) <= bp q -> Rabs (rnd (B2R a - B2R b)) < bp emax.
Proof using He He64 Hp Qe B3 Q0.
  intros A B. apply rnd_small with (q + 3)%Z; [lia|]. rewrite B3.
  unfold Rminus. assert (T := Rabs_triang (B2R a) (- B2R b)). rewrite Rabs_Ropp in T. lra.
Qed.

Lemma axis_quotient : fdiv o (fsub o x' start') step' = fdiv o (fsub o x start) step.
Proof using Hs Hh Hx Ra Ra' Rx Rx' sub_ok Q0.
  symmetry. destruct Ra as (A1 & A2). destruct Ra' as (A1' & A2'). unfold roomy in *.
  apply (rescaled_div k); auto. apply rescaled_sub; auto; apply sub_ok; auto; lra.
Qed.

Lemma prod_small (a h n : fl) z : roomy_axis a h d -> B2R n = IZR z -> (0 <= z <= 2 * d)%Z ->
  Rabs (B2R h * B2R n) <= 2 * bp q /\ Rabs (rnd (B2R h * B2R n)) <= 2 * bp q.
Proof using He He64 Hp Qe B1 Q0 Hd.
  intros (_ & A) Vn Hz.
  assert (P : Rabs (B2R h * B2R n) <= 2 * bp q).
  { rewrite Rabs_mult, Vn, <- abs_IZR, Z.abs_eq by lia.
    apply Rle_trans with (Rabs (B2R h) * (2 * IZR d)); [|lra].
    apply Rmult_le_compat_l; [apply Rabs_pos|]. rewrite <- mult_IZR. apply IZR_le. lia. }
  split; auto. rewrite <- B1. apply rnd_bound; auto; [lia|]. rewrite B1. exact P.
Qed.

Lemma axis_node fma i : (0 <= i < d)%Z ->
  reg_dtp o fma start' step' x' i = reg_dtp o fma start step x i.
Proof using All.
  intros Hi. unfold reg_dtp. symmetry.
  destruct (uf_whole i d He64 Hi ltac:(lia)) as (z & Fn & Vn & Hz). set (n := uf o i) in *.
  assert (A := Ra). assert (A' := Ra'). destruct A as (A1 & A2). destruct A' as (A1' & A2'). unfold roomy in Rx, Rx'.
  destruct (prod_small start step n z Ra Vn Hz) as (P1 & P2).
  destruct (prod_small start' step' n z Ra' Vn Hz) as (P1' & P2').
  assert (Small : forall u, Rabs u <= 3 * bp q -> Rabs (rnd u) < bp emax /\ Rabs (rnd u) <= 4 * bp q).
  { intros u Hu. split; [apply rnd_small with (q + 2)%Z; [lia|rewrite B2; lra]|].
    rewrite <- B2. apply rnd_bound; auto; [lia|rewrite B2; lra]. }
  assert (Sub : forall nd nd' : fl, rescaled k nd nd' -> Rabs (B2R nd) <= 4 * bp q -> Rabs (B2R nd') <= 4 * bp q ->
    rescaled k (fsub o x nd) (fsub o x' nd')).
  { intros nd nd' R N N'. apply rescaled_sub; auto.
    - apply rnd_small with (q + 3)%Z; [lia|]. rewrite B3. unfold Rminus.
      assert (T := Rabs_triang (B2R x) (- B2R nd)). rewrite Rabs_Ropp in T. lra.
    - apply rnd_small with (q + 3)%Z; [lia|]. rewrite B3. unfold Rminus.
      assert (T := Rabs_triang (B2R x') (- B2R nd')). rewrite Rabs_Ropp in T. lra. }
  apply (rescaled_div k); auto. destruct fma.
  - assert (T : Rabs (B2R step * B2R n + B2R start) <= 3 * bp q).
    { eapply Rle_trans; [apply Rabs_triang|]. lra. }
    assert (T' : Rabs (B2R step' * B2R n + B2R start') <= 3 * bp q).
    { eapply Rle_trans; [apply Rabs_triang|]. lra. }
    destruct (Small _ T) as (T1 & T2). destruct (Small _ T') as (T1' & T2').
    assert (Fs := proj1 Hs). assert (Fs' := proj1 (proj2 Hs)). assert (Fh := proj1 Hh). assert (Fh' := proj1 (proj2 Hh)).
    apply Sub.
    + apply (rescaled_fma k step step' n z start start'); auto.
    + assert (C := Bfma_correct prec emax Hp He mode_NE step n start Fh Fn Fs). cbv zeta in C.
      change (round radix2 (SpecFloat.fexp prec emax) (round_mode mode_NE)) with rnd in C.
      rewrite Rlt_bool_true in C by exact T1. destruct C as (C1 & _).
      change (fmuladd o step n start) with (Bfma mode_NE step n start). rewrite C1. exact T2.
    + assert (C := Bfma_correct prec emax Hp He mode_NE step' n start' Fh' Fn Fs'). cbv zeta in C.
      change (round radix2 (SpecFloat.fexp prec emax) (round_mode mode_NE)) with rnd in C.
      rewrite Rlt_bool_true in C by exact T1'. destruct C as (C1 & _).
      change (fmuladd o step' n start') with (Bfma mode_NE step' n start'). rewrite C1. exact T2'.
  - assert (Pl : Rabs (rnd (B2R step * B2R n)) < bp emax).
    { apply rnd_small with (q + 1)%Z; [lia|rewrite B1; exact P1]. }
    assert (Pl' : Rabs (rnd (B2R step' * B2R n)) < bp emax).
    { apply rnd_small with (q + 1)%Z; [lia|rewrite B1; exact P1']. }
    assert (Rm := rescaled_mul k step step' n z Hh Fn Vn Pl Pl').
    assert (Vm : B2R (fmul o step n) = rnd (B2R step * B2R n)).
    { assert (C := Bmult_correct prec emax Hp He mode_NE step n).
      change (round radix2 (SpecFloat.fexp prec emax) (round_mode mode_NE)) with rnd in C.
      rewrite Rlt_bool_true in C by exact Pl. exact (proj1 C). }
    assert (Vm' : B2R (fmul o step' n) = rnd (B2R step' * B2R n)).
    { assert (C := Bmult_correct prec emax Hp He mode_NE step' n).
      change (round radix2 (SpecFloat.fexp prec emax) (round_mode mode_NE)) with rnd in C.
      rewrite Rlt_bool_true in C by exact Pl'. exact (proj1 C). }
    assert (T : Rabs (B2R start + B2R (fmul o step n)) <= 3 * bp q).
    { eapply Rle_trans; [apply Rabs_triang|]. rewrite Vm. lra. }
    assert (T' : Rabs (B2R start' + B2R (fmul o step' n)) <= 3 * bp q).
    { eapply Rle_trans; [apply Rabs_triang|]. rewrite Vm'. lra. }
    destruct (Small _ T) as (T1 & T2). destruct (Small _ T') as (T1' & T2').
    apply Sub.
    + apply rescaled_add; auto.
    + assert (C := Bplus_correct prec emax Hp He mode_NE start (fmul o step n) (proj1 Hs) (proj1 Rm)).
      change (round radix2 (SpecFloat.fexp prec emax) (round_mode mode_NE)) with rnd in C.
      rewrite Rlt_bool_true in C by exact T1. destruct C as (C1 & _).
      change (fadd o start (fmul o step n)) with (Bplus mode_NE start (fmul o step n)). rewrite C1. exact T2.
    + assert (C := Bplus_correct prec emax Hp He mode_NE start' (fmul o step' n) (proj1 (proj2 Hs)) (proj1 (proj2 Rm))).
      change (round radix2 (SpecFloat.fexp prec emax) (round_mode mode_NE)) with rnd in C.
      rewrite Rlt_bool_true in C by exact T1'. destruct C as (C1 & _).
      change (fadd o start' (fmul o step' n)) with (Bplus mode_NE start' (fmul o step' n)). rewrite C1. exact T2'.
Qed.
End RegAxis.
End B.
