(** Changes of units of one-dimensional grids by a power of two. *)
From Coq Require Import Reals Lra ZArith Bool ZifyBool Psatz.
From Flocq Require Import Core.Core IEEE754.BinarySingleNaN.
From Verif Require Import Base Ops FInst ModelCore ModelOneDim Spec SpecIEEE SpecUnits SpecUnitOneDim
  CoreLemmas SearchLemmas FLemmas FCubicRect UnitProofs UtilProofs.
Unset Implicit Arguments.
Open Scope list_scope.
Open Scope R_scope.

Section B.
Variables prec emax : Z.
Context (Hp : Prec_gt_0 prec) (He : Prec_lt_emax prec emax).
Notation fl := (binary_float prec emax).
Notation o := (BOps Hp He).
Notation emin := (3 - emax - prec)%Z.
Notation fexp := (FLT_exp emin prec).
Notation rnd := (FLemmas.rnd prec emax).
Notation fin x := (is_finite x = true).
Notation bp := (bpow radix2).

Lemma rnd_scale_normal x k : bp (2 - emax) <= Rabs x -> bp (2 - emax) <= Rabs (x * bp k) -> rnd (x * bp k) = rnd x * bp k.
Proof.
  intros H H'. assert (0 < prec)%Z by exact Hp.
  assert (Xn : x <> 0).
  { intros ->. rewrite Rabs_R0 in H. assert (0 < bp (2 - emax)) by apply bpow_gt_0. lra. }
  assert (M : (2 - emax + 1 <= mag radix2 x)%Z) by (apply Zlt_le_succ, mag_gt_bpow, H).
  assert (M' : (2 - emax + 1 <= mag radix2 (x * bp k))%Z) by (apply Zlt_le_succ, mag_gt_bpow, H').
  rewrite mag_mult_bpow in M' by exact Xn.
  unfold FLemmas.rnd, round, scaled_mantissa, cexp. rewrite mag_mult_bpow by auto.
  assert (E1 : fexp (mag radix2 x) = (mag radix2 x - prec)%Z) by (unfold FLT_exp; lia).
  assert (E2 : fexp (mag radix2 x + k) = (mag radix2 x - prec + k)%Z) by (unfold FLT_exp; lia).
  rewrite E1, E2. unfold F2R. cbn [Fnum Fexp].
  replace (x * bp k * bp (- (mag radix2 x - prec + k))) with (x * bp (- (mag radix2 x - prec))).
  2:{ rewrite Rmult_assoc, <- bpow_plus. f_equal. f_equal. lia. }
  rewrite (bpow_plus _ (mag radix2 x - prec) k). ring.
Qed.

Lemma mul_same k a a' b b' : rescaled (- k) a a' -> rescaled k b b' -> fmul o a b = fmul o a' b'.
Proof.
  intros (Fa & Fa' & Va & Sa) (Fb & Fb' & Vb & Sb).
  change (fmul o) with (Bmult (prec := prec) (emax := emax) mode_NE).
  assert (C := Bmult_correct prec emax Hp He mode_NE a b). assert (C' := Bmult_correct prec emax Hp He mode_NE a' b').
  assert (E : B2R a' * B2R b' = B2R a * B2R b).
  { rewrite Va, Vb. replace (B2R a * bp (- k) * (B2R b * bp k)) with (B2R a * B2R b * (bp (- k) * bp k)) by ring.
    rewrite <- bpow_plus. replace (- k + k)%Z with 0%Z by lia. cbn. ring. }
  rewrite E, Sa, Sb in C'. destruct (Rlt_bool _ _).
  - destruct C as (C1 & C2 & C3). destruct C' as (D1 & D2 & D3). rewrite Fa, Fb in C2. rewrite Fa', Fb' in D2.
    apply B2R_Bsign_inj; auto; [congruence|].
    rewrite C3, D3; auto; [destruct (Bmult mode_NE a' b')|destruct (Bmult mode_NE a b)]; simpl in *; congruence.
  - apply B2SF_inj. congruence.
Qed.
Lemma fma_same k a a' b b' s : rescaled (- k) a a' -> rescaled k b b' -> fin s -> fmuladd o a b s = fmuladd o a' b' s.
Proof.
  intros (Fa & Fa' & Va & Sa) (Fb & Fb' & Vb & Sb) Fs.
  change (fmuladd o) with (Bfma (prec := prec) (emax := emax) mode_NE).
  assert (C := Bfma_correct prec emax Hp He mode_NE a b s Fa Fb Fs).
  assert (C' := Bfma_correct prec emax Hp He mode_NE a' b' s Fa' Fb' Fs). cbv zeta in C, C'.
  assert (E : B2R a' * B2R b' = B2R a * B2R b).
  { rewrite Va, Vb. replace (B2R a * bp (- k) * (B2R b * bp k)) with (B2R a * B2R b * (bp (- k) * bp k)) by ring.
    rewrite <- bpow_plus. replace (- k + k)%Z with 0%Z by lia. cbn. ring. }
  rewrite E in C'. unfold Bfma_szero in C, C'. rewrite Sa, Sb in C'. destruct (Rlt_bool _ _).
  - destruct C as (C1 & C2 & C3). destruct C' as (D1 & D2 & D3). apply B2R_Bsign_inj; auto; congruence.
  - apply B2SF_inj. congruence.
Qed.
Lemma slope_rescaled k dy dx dx' : fin dy -> rescaled k dx dx' -> B2R dx <> 0 ->
  (B2R dy = 0 \/ bp (2 - emax) <= Rabs (B2R dy / B2R dx) <= bp (emax - 1)) ->
  (B2R dy = 0 \/ bp (2 - emax) <= Rabs (B2R dy / B2R dx') <= bp (emax - 1)) ->
  rescaled (- k) (fdiv o dy dx) (fdiv o dy dx').
Proof.
  intros Fy (Fx & Fx' & Vx & Sx) N S S'. assert (P0 : (0 < prec)%Z) by exact Hp. assert (Pe := He). unfold Prec_lt_emax in Pe.
  assert (N' : B2R dx' <> 0) by (rewrite Vx; apply Rmult_integral_contrapositive; split; [exact N|apply bpow_neq0]).
  assert (E : B2R dy / B2R dx' = B2R dy / B2R dx * bp (- k)).
  { rewrite Vx, bpow_opp. field. split; [apply bpow_neq0|exact N]. }
  assert (small : forall v, (B2R dy = 0 \/ bp (2 - emax) <= Rabs (B2R dy / v) <= bp (emax - 1)) -> Rabs (rnd (B2R dy / v)) < bp emax).
  { intros v Hv. apply (rnd_small prec emax Hp) with (emax - 1)%Z; [lia|]. destruct Hv as [->|(_ & Hv)]; [|exact Hv].
    unfold Rdiv. rewrite Rmult_0_l, Rabs_R0. apply bpow_ge_0. }
  assert (C := Bdiv_correct prec emax Hp He mode_NE dy dx N). assert (C' := Bdiv_correct prec emax Hp He mode_NE dy dx' N').
  change (round radix2 (SpecFloat.fexp prec emax) (round_mode mode_NE)) with rnd in C, C'.
  rewrite Rlt_bool_true in C by (apply small; exact S). rewrite Rlt_bool_true in C' by (apply small; exact S').
  destruct C as (C1 & C2 & C3). destruct C' as (D1 & D2 & D3).
  change (fdiv o) with (Bdiv (prec := prec) (emax := emax) mode_NE).
  split; [congruence|]. split; [congruence|]. split.
  - rewrite C1, D1, E. destruct S as [S|(S & _)].
    + rewrite S. unfold Rdiv. rewrite !Rmult_0_l. unfold FLemmas.rnd. rewrite round_0 by typeclasses eauto. ring.
    + apply rnd_scale_normal; [exact S|]. rewrite <- E. destruct S' as [S'|(S' & _)]; [|exact S'].
      exfalso. revert S. rewrite S'. unfold Rdiv. rewrite Rmult_0_l, Rabs_R0. assert (0 < bp (2 - emax)) by apply bpow_gt_0. lra.
  - rewrite C3, D3, Sx; [reflexivity| |].
    + destruct (Bdiv mode_NE dy dx'); simpl in *; congruence.
    + destruct (Bdiv mode_NE dy dx); simpl in *; congruence.
Qed.

(** ** Samples *)
Definition same_sample (k : Z) (s s' : @grid_sample fl) : Prop :=
  rescaled k (sx0 s) (sx0 s') /\ rescaled k (sx1 s) (sx1 s') /\ moderate (sx0 s) /\ moderate (sx1 s) /\ moderate (sx0 s') /\ moderate (sx1 s') /\
  sy0 s' = sy0 s /\ sy1 s' = sy1 s /\ sextrap s' = sextrap s.
Section Step.
Variables (k : Z) (x x' : fl).
Hypothesis He3 : (3 <= emax)%Z.
Hypothesis Hx : rescaled k x x'.
Hypothesis Mx : moderate x.
Hypothesis Mx' : moderate x'.
Lemma le_same a a' b b' : rescaled k a a' -> rescaled k b b' -> fle o a b = fle o a' b'.
Proof using.
  intros (Fa & Fa' & Va & Sa) (Fb & Fb' & Vb & Sb). cbn [fle BOps]. rewrite !Bleb_correct by auto. rewrite Va, Vb.
  destruct (Rle_bool_spec (B2R a) (B2R b)) as [L|L]; symmetry;
    [apply Rle_bool_true, Rmult_le_compat_r; auto; apply bpow_ge_0
    |apply Rle_bool_false, Rmult_lt_compat_r; auto; apply bpow_gt_0].
Qed.
Lemma abs_same a a' : rescaled k a a' -> rescaled k (fabs o a) (fabs o a').
Proof using.
  intros (Fa & Fa' & Va & Sa). change (fabs o) with (Babs (prec := prec) (emax := emax)). unfold rescaled.
  rewrite !is_finite_Babs, !B2R_Babs, Va, Rabs_mult, (Rabs_pos_eq (bp k)) by apply bpow_ge_0.
  repeat split; auto. destruct a, a'; simpl in *; try discriminate; reflexivity.
Qed.
Lemma minus_same a a' : rescaled k a a' -> moderate a -> moderate a' -> rescaled k (fsub o x a) (fsub o x' a').
Proof using He3 Hx Mx Mx'. intros R M M'. apply (rescaled_sub prec emax Hp He); auto; apply moderate_minus; auto. Qed.
Lemma line_same c s s' : same_sample k s s' -> normal_slope Hp He (sx0 s) (sy0 s) (sx1 s) (sy1 s) ->
  normal_slope Hp He (sx0 s') (sy0 s') (sx1 s') (sy1 s') -> line_through o c s' x' = line_through o c s x.
Proof using He3 Hx Mx Mx'.
  unfold line_through. cbv zeta. intros (R0 & R1 & M0 & M1 & M0' & M1' & -> & -> & _) (F0 & F1 & Fd & N & S) (_ & _ & _ & _ & S').
  assert (Rd : rescaled k (fsub o (sx1 s) (sx0 s)) (fsub o (sx1 s') (sx0 s')))
    by (apply (rescaled_sub prec emax Hp He); auto; apply moderate_minus; auto).
  assert (Rs := slope_rescaled k _ _ _ Fd Rd N S S'). assert (Rx := minus_same _ _ R0 M0 M0'). destruct (use_fma c).
  - symmetry. apply (fma_same k); auto.
  - f_equal. symmetry. apply (mul_same k); auto.
Qed.
Lemma near_same s s' : same_sample k s s' ->
  fle o (fabs o (fsub o x' (sx0 s'))) (fabs o (fsub o x' (sx1 s'))) = fle o (fabs o (fsub o x (sx0 s))) (fabs o (fsub o x (sx1 s))).
Proof using He3 Hx Mx Mx'.
  intros (R0 & R1 & M0 & M1 & M0' & M1' & _). symmetry. apply le_same; apply abs_same; apply minus_same; auto.
Qed.
(** What the five methods do with such samples. *)
Lemma methods_same c at_ at_' : outcome_rel (same_sample k) (at_ x) (at_' x') ->
  (left1 at_' x' = left1 at_ x /\ right1 at_' x' = right1 at_ x /\ nearest1 o at_' x' = nearest1 o at_ x) /\
  ((forall s, at_ x = Ok s -> normal_slope Hp He (sx0 s) (sy0 s) (sx1 s) (sy1 s)) ->
   (forall s, at_' x' = Ok s -> normal_slope Hp He (sx0 s) (sy0 s) (sx1 s) (sy1 s)) ->
   linear1 o c at_' x' = linear1 o c at_ x /\ hold_last1 o c at_' x' = hold_last1 o c at_ x).
Proof using He3 Hx Mx Mx'.
  unfold left1, right1, nearest1, linear1, hold_last1. destruct (at_ x) as [s|e|], (at_' x') as [s'|e'|]; cbn [outcome_rel]; intros R; try contradiction.
  - cbn [bind]. rewrite (near_same s s' R).
    assert (L := fun A B => line_same c s s' R A B). destruct R as (_ & _ & _ & _ & _ & _ & -> & -> & ->). split; [split; [|split]; reflexivity|].
    intros A B. rewrite (L (A _ eq_refl) (B _ eq_refl)). split; reflexivity.
  - subst e'. cbn [bind]. repeat split.
  - cbn [bind]. repeat split.
Qed.
End Step.

(** ** Rectilinear grids *)
Section Rect.
Variables (k : Z) (c : cfg) (grid grid' vals : list fl) (x x' : fl).
Hypothesis He3 : (3 <= emax)%Z.
Hypothesis Hg : Forall2 (rescaled k) grid grid'.
Hypothesis Mg : Forall moderate grid.
Hypothesis Mg' : Forall moderate grid'.
Hypothesis Hx : rescaled k x x'.
Lemma idx_same i : (idx grid i = Panic /\ idx grid' i = Panic) \/
  exists a a', idx grid i = Ok a /\ idx grid' i = Ok a' /\ nth_error grid (Z.to_nat i) = Some a /\ nth_error grid' (Z.to_nat i) = Some a' /\
    rescaled k a a' /\ moderate a /\ moderate a' /\ (0 <= i)%Z.
Proof using Hg Mg Mg'.
  assert (L : length grid' = length grid) by (clear -Hg; induction Hg; simpl; auto).
  unfold idx, zlen. rewrite L. destruct ((0 <=? i)%Z && (i <? Z.of_nat (length grid))%Z) eqn:E; [right|left; auto].
  assert (I : (Z.to_nat i < length grid)%nat) by lia. unfold aget.
  destruct (nth_error grid (Z.to_nat i)) as [a|] eqn:A; [|apply nth_error_None in A; lia].
  destruct (nth_error grid' (Z.to_nat i)) as [a'|] eqn:A'; [|apply nth_error_None in A'; lia].
  exists a, a'. repeat (split; [reflexivity|]). split.
  - assert (H := Forall2_nth_lt _ _ _ _ _ a a' Hg (Z.to_nat i) I). rewrite (nth_error_nth _ _ _ A), (nth_error_nth _ _ _ A') in H. exact H.
  - split; [|split]; [| |lia].
    + rewrite Forall_forall in Mg. apply Mg. eapply nth_error_In. exact A.
    + rewrite Forall_forall in Mg'. apply Mg'. eapply nth_error_In. exact A'.
Qed.
Lemma index_same : c1_index o c (mkC1 grid' vals) x' = c1_index o c (mkC1 grid vals) x.
Proof using Hg Hx Mg Mg'.
  assert (L : length grid' = length grid) by (clear -Hg; induction Hg; simpl; auto).
  unfold c1_index. cbn [c1_grid]. unfold zlen. rewrite L.
  rewrite <- (partition_point_map _ _ (fun a => flt o a x') (fun a => flt o a x') (fun b : bool => b) grid') by auto.
  rewrite <- (partition_point_map _ _ (fun a => flt o a x) (fun a => flt o a x) (fun b : bool => b) grid) by auto.
  replace (map (fun a => flt o a x') grid') with (map (fun a => flt o a x) grid).
  2:{ clear -Hg Hx. induction Hg as [|a a' l l' H0 H IH]; simpl; [reflexivity|]. f_equal; auto. apply (rescaled_lt prec emax Hp He k); auto. }
  destruct (partition_point _ _) as [pp|e|]; cbn [bind]; try reflexivity.
  destruct (isize_sub c (as_isize pp) 1) as [i0|e|]; cbn [bind]; try reflexivity.
  destruct (usize_sub c (Z.of_nat (length grid)) 2) as [m|e|]; cbn [bind]; try reflexivity.
  destruct (idx_same 0) as [(-> & ->)|(a & a' & -> & -> & _ & _ & R & _)]; cbn [bind]; [reflexivity|].
  rewrite <- (rescaled_lt prec emax Hp He k x x' a a' Hx R). destruct (flt o x a); [reflexivity|].
  destruct (usize_sub c (Z.of_nat (length grid)) 1) as [m1|e|]; cbn [bind]; try reflexivity.
  destruct (idx_same m1) as [(-> & ->)|(b & b' & -> & -> & _ & _ & R' & _)]; cbn [bind]; [reflexivity|].
  rewrite <- (rescaled_lt prec emax Hp He k b b' x x' R' Hx). reflexivity.
Qed.
Lemma rect_sample : outcome_rel (same_sample k) (c1_at o c (mkC1 grid vals) x) (c1_at o c (mkC1 grid' vals) x') /\
  (forall s, normal_slopes Hp He grid vals -> (zlen grid < two64)%Z -> c1_at o c (mkC1 grid vals) x = Ok s -> normal_slope Hp He (sx0 s) (sy0 s) (sx1 s) (sy1 s)) /\
  (forall s, normal_slopes Hp He grid' vals -> (zlen grid < two64)%Z -> c1_at o c (mkC1 grid' vals) x' = Ok s -> normal_slope Hp He (sx0 s) (sy0 s) (sx1 s) (sy1 s)).
Proof using Hg Hx Mg Mg'.
  unfold c1_at. rewrite index_same. destruct (c1_index o c (mkC1 grid vals) x) as [[i ex]|e|]; cbn [bind c1_grid c1_vals].
  2:{ split; [reflexivity|]. split; discriminate. }
  2:{ split; [exact I|]. split; discriminate. }
  destruct (idx_same i) as [(-> & ->)|(a & a' & -> & -> & A & A' & R & M & M' & I0)]; cbn [bind]; [split; [exact I|]; split; discriminate|].
  assert (Li : (i < zlen grid)%Z) by (assert (Z.to_nat i < length grid)%nat by (apply nth_error_Some; congruence); unfold zlen; lia).
  assert (U : forall i1, (zlen grid < two64)%Z -> usize_add c i 1 = Ok i1 -> i1 = (i + 1)%Z).
  { intros i1 Hz. unfold usize_add, usize_res. destruct ((0 <=? i + 1)%Z && (i + 1 <? two64)%Z) eqn:E; [intros [= <-]; reflexivity|lia]. }
  destruct (usize_add c i 1) as [i1|e|]; cbn [bind]; [| |].
  2:{ split; [reflexivity|]. split; discriminate. }
  2:{ split; [exact I|]. split; discriminate. }
  destruct (idx_same i1) as [(-> & ->)|(b & b' & -> & -> & B & B' & R1 & M1 & M1' & _)]; cbn [bind]; [split; [exact I|]; split; discriminate|].
  assert (V : forall j y, idx vals j = Ok y -> nth_error vals (Z.to_nat j) = Some y).
  { intros j y. unfold idx, aget. destruct ((0 <=? j)%Z && (j <? zlen vals)%Z); [|discriminate].
    destruct (nth_error vals (Z.to_nat j)); [congruence|discriminate]. }
  destruct (idx vals i) as [y0|e|] eqn:Y0; cbn [bind].
  2:{ split; [reflexivity|]. split; discriminate. }
  2:{ split; [exact I|]. split; discriminate. }
  destruct (idx vals i1) as [y1|e|] eqn:Y1; cbn [bind].
  2:{ split; [reflexivity|]. split; discriminate. }
  2:{ split; [exact I|]. split; discriminate. }
  apply V in Y0, Y1. split; [|split].
  - unfold outcome_rel, same_sample. cbn [sx0 sx1 sy0 sy1 sextrap]. repeat (split; [assumption||reflexivity|]). reflexivity.
  - intros s H Hz [= <-]. cbn [sx0 sx1 sy0 sy1]. assert (E := U i1 Hz eq_refl). subst i1.
    replace (Z.to_nat (i + 1)) with (S (Z.to_nat i)) in B, Y1 by lia. apply (H (Z.to_nat i)); assumption.
  - intros s H Hz [= <-]. cbn [sx0 sx1 sy0 sy1]. assert (E := U i1 Hz eq_refl). subst i1.
    replace (Z.to_nat (i + 1)) with (S (Z.to_nat i)) in B', Y1 by lia. apply (H (Z.to_nat i)); assumption.
Qed.
End Rect.

Theorem unit_rect k c (grid grid' vals : list fl) g g' x x' : (3 <= emax)%Z ->
  Forall2 (rescaled k) grid grid' -> Forall moderate grid -> Forall moderate grid' ->
  rescaled k x x' -> moderate x -> moderate x' -> c1_new grid vals = Ok g -> c1_new grid' vals = Ok g' ->
  (left1 (c1_at o c g') x' = left1 (c1_at o c g) x /\ right1 (c1_at o c g') x' = right1 (c1_at o c g) x /\
   nearest1 o (c1_at o c g') x' = nearest1 o (c1_at o c g) x) /\
  (normal_slopes Hp He grid vals -> normal_slopes Hp He grid' vals -> (zlen vals < two64)%Z ->
   linear1 o c (c1_at o c g') x' = linear1 o c (c1_at o c g) x /\ hold_last1 o c (c1_at o c g') x' = hold_last1 o c (c1_at o c g) x).
Proof.
  intros He3 Hg Mg Mg' Hx Mx Mx' E E'.
  assert (E1 : g = mkC1 grid vals /\ length grid = length vals).
  { revert E. unfold c1_new. destruct (Nat.eqb_spec (length grid) (length vals)); cbn [negb orb]; [|discriminate].
    destruct (length grid <? 2)%nat; [discriminate|]. intros [= <-]. auto. }
  destruct E1 as (-> & Lv).
  assert (E2 : g' = mkC1 grid' vals).
  { revert E'. unfold c1_new. destruct (_ || _); [discriminate|]. intros [= <-]. reflexivity. }
  subst g'. destruct (rect_sample k c grid grid' vals x x' Hg Mg Mg' Hx) as (S & N & N').
  destruct (methods_same k x x' He3 Hx Mx Mx' c _ _ S) as (A & B). split; [exact A|].
  intros H H' Hz. assert (zlen grid < two64)%Z by (unfold zlen in *; lia). apply B; auto.
Qed.

(** ** Regular grids *)
Section Reg.
Variables (k : Z) (c : cfg) (start step start' step' : fl) (d : Z).
Hypothesis He64 : (64 < emax)%Z.
Hypothesis Hd : (2 <= d <= isize_max)%Z.
Hypothesis Hs : rescaled k start start'.
Hypothesis Hh : rescaled k step step'.
Hypothesis Ra : wide_axis start step d.
Hypothesis Ra' : wide_axis start' step' d.
Notation q := (emax - 6)%Z.
Let Qe : (emin <= q)%Z.
Proof. assert (0 < prec)%Z by exact Hp. unfold Prec_lt_emax in He. lia. Qed.
Let B1 : bp (q + 1) = 2 * bp q.
Proof. rewrite bpow_plus. change (bp 1) with 2. ring. Qed.
Let B2 : bp (q + 2) = 4 * bp q.
Proof. rewrite bpow_plus. change (bp 2) with 4. ring. Qed.
Let B3 : bp (q + 3) = 8 * bp q.
Proof. rewrite bpow_plus. change (bp 3) with 8. ring. Qed.
Let Q0 : 0 < bp q.
Proof. apply bpow_gt_0. Qed.

Let step_small (h : fl) : Rabs (B2R h) * IZR d <= bp q -> Rabs (B2R h) <= bp q.
Proof using Hd.
  intros H. apply Rle_trans with (2 := H). rewrite <- (Rmult_1_r (Rabs (B2R h))) at 1.
  apply Rmult_le_compat_l; [apply Rabs_pos|]. apply IZR_le. lia.
Qed.
Let prod_small (h n : fl) z : Rabs (B2R h) * IZR d <= bp q -> B2R n = IZR z -> (0 <= z <= 2 * d)%Z ->
  Rabs (rnd (B2R h * B2R n)) <= 2 * bp q.
Proof using He He64 Hp Qe B1 Q0 Hd.
  intros A Vn Hz.
  assert (P : Rabs (B2R h * B2R n) <= 2 * bp q).
  { rewrite Rabs_mult, Vn, <- abs_IZR, Z.abs_eq by lia.
    apply Rle_trans with (Rabs (B2R h) * (2 * IZR d)); [|lra].
    apply Rmult_le_compat_l; [apply Rabs_pos|]. rewrite <- mult_IZR. apply IZR_le. lia. }
  rewrite <- B1. apply (rnd_bound prec emax Hp); auto; [lia|]. rewrite B1. exact P.
Qed.
Let lt_emax u e : (e < emax)%Z -> Rabs u <= bp e -> Rabs u < bp emax.
Proof. intros E H. apply Rle_lt_trans with (1 := H). apply bpow_lt. exact E. Qed.
Let val_mul (h n : fl) : Rabs (rnd (B2R h * B2R n)) < bp emax -> B2R (fmul o h n) = rnd (B2R h * B2R n).
Proof.
  intros L. assert (C := Bmult_correct prec emax Hp He mode_NE h n).
  change (round radix2 (SpecFloat.fexp prec emax) (round_mode mode_NE)) with rnd in C.
  rewrite Rlt_bool_true in C by exact L. exact (proj1 C).
Qed.
Let val_add (a b : fl) : fin a -> fin b -> Rabs (rnd (B2R a + B2R b)) < bp emax -> B2R (fadd o a b) = rnd (B2R a + B2R b).
Proof.
  intros Fa Fb L. assert (C := Bplus_correct prec emax Hp He mode_NE a b Fa Fb).
  change (round radix2 (SpecFloat.fexp prec emax) (round_mode mode_NE)) with rnd in C.
  rewrite Rlt_bool_true in C by exact L. exact (proj1 C).
Qed.
Lemma node_same i : (0 <= i < d)%Z -> let n := MethodChar.uf o i in
  rescaled k (fadd o start (fmul o step n)) (fadd o start' (fmul o step' n)) /\
  Rabs (B2R (fadd o start (fmul o step n))) <= 4 * bp q /\ Rabs (B2R (fadd o start' (fmul o step' n))) <= 4 * bp q.
Proof using All.
  intros Hi n. destruct (uf_whole prec emax Hp He i d He64 Hi ltac:(lia)) as (z & Fn & Vn & Hz). fold n in Fn, Vn.
  destruct Ra as (A1 & A2). destruct Ra' as (A1' & A2').
  assert (P := prod_small step n z A2 Vn Hz). assert (P' := prod_small step' n z A2' Vn Hz).
  assert (L : Rabs (rnd (B2R step * B2R n)) < bp emax) by (apply (lt_emax _ (q + 1)); [lia|rewrite B1; exact P]).
  assert (L' : Rabs (rnd (B2R step' * B2R n)) < bp emax) by (apply (lt_emax _ (q + 1)); [lia|rewrite B1; exact P']).
  assert (M := rescaled_mul prec emax Hp He k step step' n z Hh Fn Vn L L').
  assert (V := val_mul _ _ L). assert (V' := val_mul _ _ L').
  assert (T : Rabs (rnd (B2R start + B2R (fmul o step n))) <= 4 * bp q).
  { rewrite <- B2. apply (rnd_bound prec emax Hp); [lia|]. rewrite B2, V. eapply Rle_trans; [apply Rabs_triang|]. lra. }
  assert (T' : Rabs (rnd (B2R start' + B2R (fmul o step' n))) <= 4 * bp q).
  { rewrite <- B2. apply (rnd_bound prec emax Hp); [lia|]. rewrite B2, V'. eapply Rle_trans; [apply Rabs_triang|]. lra. }
  assert (W : Rabs (rnd (B2R start + B2R (fmul o step n))) < bp emax) by (apply (lt_emax _ (q + 2)); [lia|rewrite B2; exact T]).
  assert (W' : Rabs (rnd (B2R start' + B2R (fmul o step' n))) < bp emax) by (apply (lt_emax _ (q + 2)); [lia|rewrite B2; exact T']).
  split; [apply (rescaled_add prec emax Hp He); auto|].
  assert (F1 := proj1 M). assert (F1' := proj1 (proj2 M)). assert (F0 := proj1 Hs). assert (F0' := proj1 (proj2 Hs)).
  rewrite !val_add by auto. split; assumption.
Qed.
Lemma next_same a a' : rescaled k a a' -> Rabs (B2R a) <= 4 * bp q -> Rabs (B2R a') <= 4 * bp q ->
  rescaled k (fadd o a step) (fadd o a' step') /\ moderate (fadd o a step) /\ moderate (fadd o a' step').
Proof using All.
  intros R A A'. destruct Ra as (A1 & A2). destruct Ra' as (A1' & A2'). apply step_small in A2, A2'.
  assert (T : Rabs (rnd (B2R a + B2R step)) <= bp (q + 3)).
  { apply (rnd_bound prec emax Hp); [lia|]. rewrite B3. eapply Rle_trans; [apply Rabs_triang|]. lra. }
  assert (T' : Rabs (rnd (B2R a' + B2R step')) <= bp (q + 3)).
  { apply (rnd_bound prec emax Hp); [lia|]. rewrite B3. eapply Rle_trans; [apply Rabs_triang|]. lra. }
  assert (W := lt_emax _ (q + 3) ltac:(lia) T). assert (W' := lt_emax _ (q + 3) ltac:(lia) T').
  assert (S := rescaled_add prec emax Hp He k a a' step step' R Hh W W'). split; [exact S|].
  destruct S as (F & F' & _). destruct R as (Fa & Fa' & _). destruct Hh as (Fh & Fh' & _).
  assert (bp (q + 3) <= bp (emax - 2)) by (apply bpow_le; lia).
  split; (split; [assumption|]); rewrite val_add by auto; lra.
Qed.
Lemma four_moderate (a : fl) : fin a -> Rabs (B2R a) <= 4 * bp q -> moderate a.
Proof using All. intros F A. split; [exact F|]. apply Rle_trans with (1 := A). rewrite <- B2. apply bpow_le. lia. Qed.

Variables (vals : list fl) (x x' : fl).
Hypothesis Lv : zlen vals = d.
Hypothesis Hx : rescaled k x x'.
Hypothesis Wx : wide x.
Hypothesis Wx' : wide x'.
Lemma quotient_same : fdiv o (fsub o x' start') step' = fdiv o (fsub o x start) step.
Proof using All.
  symmetry. apply (rescaled_div prec emax Hp He k); auto. destruct Ra as (A1 & _). destruct Ra' as (A1' & _). unfold wide in *.
  apply (rescaled_sub prec emax Hp He); auto; apply (rnd_small prec emax Hp) with (q + 1)%Z; try lia; rewrite B1;
    unfold Rminus; (eapply Rle_trans; [apply Rabs_triang|]); rewrite Rabs_Ropp; lra.
Qed.
Lemma reg_sample g g' : r1_new o c start step vals = Ok g -> r1_new o c start' step' vals = Ok g' ->
  outcome_rel (same_sample k) (r1_at o c g x) (r1_at o c g' x') /\
  (forall s, normal_slopes_regular Hp He start step vals -> r1_at o c g x = Ok s -> normal_slope Hp He (sx0 s) (sy0 s) (sx1 s) (sy1 s)) /\
  (forall s, normal_slopes_regular Hp He start' step' vals -> r1_at o c g' x' = Ok s -> normal_slope Hp He (sx0 s) (sy0 s) (sx1 s) (sy1 s)).
Proof using All.
  unfold r1_new. rewrite Lv, usize_sub_ok by (unfold two64, isize_max in *; lia). cbn [bind].
  destruct (of_usize o (d - 1)) as [mf|] eqn:Em; [|discriminate]. cbn [ok_or bind].
  intros [= <-] [= <-]. unfold r1_at, r1_index. cbn [r1_start r1_stop r1_step r1_vals]. cbv zeta.
  change (@Bplus prec emax Hp He mode_NE) with (fadd o). change (@Bmult prec emax Hp He mode_NE) with (fmul o). rewrite quotient_same.
  assert (Es : mf = MethodChar.uf o (d - 1)) by (unfold MethodChar.uf; rewrite Em; reflexivity). rewrite Es.
  destruct (node_same (d - 1) ltac:(lia)) as (Rl & _). cbv zeta in Rl.
  rewrite <- (rescaled_lt prec emax Hp He k _ _ x x' Rl Hx), <- (rescaled_lt prec emax Hp He k x x' _ _ Hx Hs).
  set (ex := if flt o (fadd o start (fmul o step (MethodChar.uf o (d - 1)))) x then _ else _). clearbody ex.
  destruct (to_isize o _) as [i|]; cbn [ok_or bind].
  2:{ split; [reflexivity|]. split; discriminate. }
  rewrite Lv, usize_sub_ok by (unfold two64, isize_max in *; lia). cbn [bind]. rewrite SearchLemmas.as_isize_small by lia.
  set (j := Z.min (Z.max i 0) (d - 2)). assert (Hj : (0 <= j <= d - 2)%Z) by lia. clearbody j.
  replace (as_usize j) with j by (unfold as_usize; rewrite Z.mod_small; unfold two64, isize_max in *; lia).
  destruct (UtilProofs.usize_converts_B Hp He (n := j) ltac:(unfold two64, isize_max in *; lia)) as (fj & Ej). rewrite Ej. cbn [ok_or bind].
  assert (Ef : fj = MethodChar.uf o j) by (unfold MethodChar.uf; rewrite Ej; reflexivity).
  unfold zlen in Lv.
  destruct (nth_error vals (Z.to_nat j)) as [y0|] eqn:Y0; [|apply nth_error_None in Y0; lia].
  destruct (nth_error vals (Z.to_nat (j + 1))) as [y1|] eqn:Y1; [|apply nth_error_None in Y1; lia].
  assert (I0 : idx vals j = Ok y0).
  { unfold idx, aget, zlen. rewrite Y0. replace ((0 <=? j)%Z && (j <? Z.of_nat (length vals))%Z) with true by lia. reflexivity. }
  assert (I1 : idx vals (j + 1) = Ok y1).
  { unfold idx, aget, zlen. rewrite Y1. replace ((0 <=? j + 1)%Z && (j + 1 <? Z.of_nat (length vals))%Z) with true by lia. reflexivity. }
  rewrite I0. cbn [bind]. rewrite usize_add_ok by (unfold two64, isize_max in *; lia). cbn [bind]. rewrite I1. cbn [bind].
  destruct (node_same j ltac:(lia)) as (R0 & A0 & A0'). cbv zeta in R0, A0, A0'. rewrite <- Ef in R0, A0, A0'.
  destruct (next_same _ _ R0 A0 A0') as (R1 & M1 & M1').
  replace (Z.to_nat (j + 1)) with (S (Z.to_nat j)) in Y1 by lia.
  split; [|split].
  - unfold outcome_rel, same_sample. cbn [sx0 sx1 sy0 sy1 sextrap]. assert (F0 := proj1 R0). assert (F0' := proj1 (proj2 R0)).
    repeat (split; [assumption||reflexivity||(apply four_moderate; assumption)|]). reflexivity.
  - intros s H [= <-]. cbn [sx0 sx1 sy0 sy1]. apply (H (Z.to_nat j) fj y0 y1); auto. rewrite Z2Nat.id by lia. exact Ej.
  - intros s H [= <-]. cbn [sx0 sx1 sy0 sy1]. apply (H (Z.to_nat j) fj y0 y1); auto. rewrite Z2Nat.id by lia. exact Ej.
Qed.
End Reg.

Theorem unit_reg k c start step start' step' (vals : list fl) g g' x x' : (64 < emax)%Z -> (2 <= zlen vals <= isize_max)%Z ->
  rescaled k start start' -> rescaled k step step' -> rescaled k x x' ->
  wide_axis start step (zlen vals) -> wide_axis start' step' (zlen vals) -> wide x -> wide x' ->
  r1_new o c start step vals = Ok g -> r1_new o c start' step' vals = Ok g' ->
  (left1 (r1_at o c g') x' = left1 (r1_at o c g) x /\ right1 (r1_at o c g') x' = right1 (r1_at o c g) x /\
   nearest1 o (r1_at o c g') x' = nearest1 o (r1_at o c g) x) /\
  (normal_slopes_regular Hp He start step vals -> normal_slopes_regular Hp He start' step' vals ->
   linear1 o c (r1_at o c g') x' = linear1 o c (r1_at o c g) x /\ hold_last1 o c (r1_at o c g') x' = hold_last1 o c (r1_at o c g) x).
Proof.
  intros H64 Hd Hs Hh Hx Ra Ra' Wx Wx' E E'.
  destruct (reg_sample k c start step start' step' (zlen vals) H64 Hd Hs Hh Ra Ra' vals x x' eq_refl Hx Wx Wx' g g' E E') as (S & N & N').
  assert (W : forall v : fl, fin v -> wide v -> moderate v).
  { intros v F V. split; [exact F|]. apply Rle_trans with (1 := V). apply bpow_le. lia. }
  destruct (methods_same k x x' ltac:(lia) Hx (W _ (proj1 Hx) Wx) (W _ (proj1 (proj2 Hx)) Wx') c _ _ S) as (A & B). split; [exact A|].
  intros H H'. apply B; auto.
Qed.
End B.
