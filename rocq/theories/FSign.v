(** Floating-point multilinear interpolation keeps the values between 0 and a power of two, and
    between a power of two and its negation. *)
From Coq Require Import Reals Lra Lia List Bool ZifyBool ZifyNat PeanoNat String.
From Flocq Require Import Core.Core Relative Plus_error Mult_error IEEE754.BinarySingleNaN.
From Verif Require Import Base Ops FInst ModelCore ModelLinear ModelPython Spec SpecOrder SpecIEEE SpecPython SpecDetect SpecPixel.
From Verif Require Import CoreLemmas TensorLemmas MethodLemmas SearchLemmas MethodChar GenLemmas GenProofs OrderLemmas OrderProofs FLemmas UtilProofs FProofs FProofs2 FError FPython.
Import ListNotations.
Unset Implicit Arguments.
Open Scope string_scope.
Open Scope list_scope.
Open Scope R_scope.

Section B.
Variables prec emax : Z.
Context (Hp : Prec_gt_0 prec) (He : Prec_lt_emax prec emax).
Notation fl := (binary_float prec emax).
Notation o := (BOps Hp He).
Notation emin := (3 - emax - prec)%Z.
Notation fin x := (is_finite x = true).
Notation rnd := (rnd prec emax).
Notation fexp := (FLT_exp emin prec).

(** An interval that linear interpolation does not leave. *)
Definition kept (m M : R) : Prop := m <= M /\ Rabs (rnd (M - m)) < bpow radix2 emax /\
  Rabs m < bpow radix2 emax /\ Rabs M < bpow radix2 emax /\
  forall y : fl, fin y -> m <= B2R y <= M -> rnd (B2R y + rnd (M - B2R y)) <= M /\ m <= rnd (B2R y + rnd (m - B2R y)).

Lemma lerp_kept c m M (t y0 y1 : fl) : kept m M -> fin t -> 0 <= B2R t <= 1 -> fin y0 -> fin y1 ->
  m <= B2R y0 <= M -> m <= B2R y1 <= M -> let v := lin_nd o c t [y0; y1] in fin v /\ m <= B2R v <= M.
Proof using Hp He.
  intros (Hm & HO & Om & OM & HK) Ft Ht F0 F1 H0 H1 v. destruct (HK y0 F0 H0) as (K1 & K2).
  assert (P1 : 0 <= rnd (M - B2R y0)) by (apply rnd_nonneg; auto; lra).
  assert (P2 : rnd (m - B2R y0) <= 0) by (apply rnd_nonpos; auto; lra).
  assert (D1 : rnd (m - B2R y0) <= rnd (B2R y1 - B2R y0) <= rnd (M - B2R y0)) by (split; apply rnd_le; auto; lra).
  assert (D2 : rnd (M - B2R y0) <= rnd (M - m)) by (apply rnd_le; auto; lra).
  assert (D3 : - rnd (M - m) <= rnd (m - B2R y0)).
  { replace (rnd (m - B2R y0)) with (- rnd (B2R y0 - m)).
    - apply Ropp_le_contravar. apply rnd_le; auto. lra.
    - unfold FLemmas.rnd. rewrite <- round_NE_opp. f_equal. ring. }
  apply Rabs_def2 in HO.
  destruct (sub_ok prec emax Hp He y1 y0 F1 F0) as (Fd & Vd); [apply Rabs_def1; lra|].
  set (d := fsub o y1 y0) in *.
  (* the exact product, with or without rounding, lies between 0 and d *)
  assert (T : forall r, (0 <= B2R d -> 0 <= r <= B2R d) -> (B2R d <= 0 -> B2R d <= r <= 0) ->
    m <= rnd (B2R y0 + r) <= M /\ Rabs (rnd (B2R y0 + r)) < bpow radix2 emax).
  { intros r A1 A2. assert (Q : m <= rnd (B2R y0 + r) <= M).
    { destruct (Rle_or_lt 0 (B2R d)) as [C|C].
      - specialize (A1 C). split.
        + apply Rle_trans with (B2R y0); [lra|]. apply rnd_ge_fl; auto. lra.
        + eapply Rle_trans; [|exact K1]. apply rnd_le; auto. lra.
      - specialize (A2 ltac:(lra)). split.
        + eapply Rle_trans; [exact K2|]. apply rnd_le; auto. lra.
        + apply Rle_trans with (B2R y0); [|lra]. apply rnd_le_fl; auto. lra. }
    split; [exact Q|]. apply Rabs_def2 in Om. apply Rabs_def2 in OM. apply Rabs_def1; lra. }
  assert (S1 : 0 <= B2R d -> 0 <= B2R t * B2R d <= B2R d).
  { intros C. split; [apply Rmult_le_pos; lra|]. rewrite <- (Rmult_1_l (B2R d)) at 2. apply Rmult_le_compat_r; lra. }
  assert (S2 : B2R d <= 0 -> B2R d <= B2R t * B2R d <= 0).
  { intros C. assert (0 <= B2R t * - B2R d) by (apply Rmult_le_pos; lra).
    assert (B2R t * - B2R d <= 1 * - B2R d) by (apply Rmult_le_compat_r; lra). lra. }
  unfold v, lin_nd. cbv zeta. fold d. destruct (use_fma c).
  - destruct (T (B2R t * B2R d) S1 S2) as (Q & B). rewrite Rplus_comm in Q, B.
    destruct (fma_ok prec emax Hp He t d y0 Ft Fd F0 B) as (F & V). rewrite V. auto.
  - assert (R1 : 0 <= B2R d -> 0 <= rnd (B2R t * B2R d) <= B2R d).
    { intros C. destruct (S1 C). split; [apply rnd_nonneg; auto|apply rnd_le_fl; auto]. }
    assert (R2 : B2R d <= 0 -> B2R d <= rnd (B2R t * B2R d) <= 0).
    { intros C. destruct (S2 C). split; [apply rnd_ge_fl; auto|apply rnd_nonpos; auto]. }
    assert (Bd := fl_lt prec emax d). apply Rabs_def2 in Bd.
    destruct (mul_ok prec emax Hp He t d Ft Fd) as (Fp & Vp).
    { destruct (Rle_or_lt 0 (B2R d)) as [C|C]; [specialize (R1 C)|specialize (R2 ltac:(lra))]; apply Rabs_def1; lra. }
    destruct (T (rnd (B2R t * B2R d)) R1 R2) as (Q & B). rewrite <- Vp in Q, B.
    destruct (add_ok prec emax Hp He y0 (fmul o t d) F0 Fp B) as (F & V). rewrite V. auto.
Qed.

(** Rounding near a power of two. *)
Lemma rnd_bpow e : (emin <= e)%Z -> rnd (bpow radix2 e) = bpow radix2 e.
Proof using Hp He.
  intros H. unfold FLemmas.rnd. apply round_generic; [typeclasses eauto|].
  apply generic_format_bpow. unfold FLT_exp. unfold Prec_gt_0, Prec_lt_emax in *. lia.
Qed.
Lemma rnd_half_above e : (2 <= prec)%Z -> (2 - emax <= e)%Z -> rnd (bpow radix2 e + bpow radix2 (e - prec)) = bpow radix2 e.
Proof using Hp He.
  intros P2 H. set (x := bpow radix2 e + bpow radix2 (e - prec)).
  assert (B0 := bpow_gt_0 radix2 e). assert (B1 := bpow_gt_0 radix2 (e - prec)).
  assert (B2 : bpow radix2 (e - prec) < bpow radix2 e) by (apply bpow_lt; lia).
  assert (Mx : mag radix2 x = (e + 1)%Z :> Z).
  { apply mag_unique. rewrite Rabs_pos_eq by (unfold x; lra). replace (e + 1 - 1)%Z with e by lia.
    rewrite bpow_plus_1. change (IZR radix2) with 2. unfold x. lra. }
  assert (Cx : cexp radix2 fexp x = (e + 1 - prec)%Z) by (unfold cexp; rewrite Mx; unfold FLT_exp; lia).
  unfold FLemmas.rnd, round. rewrite Cx. unfold scaled_mantissa. rewrite Cx.
  assert (S : x * bpow radix2 (- (e + 1 - prec)) = IZR (2 ^ (prec - 1)) + / 2).
  { unfold x. rewrite Rmult_plus_distr_r, <- !bpow_plus.
    replace (e + - (e + 1 - prec))%Z with (prec - 1)%Z by lia. replace (e - prec + - (e + 1 - prec))%Z with (-1)%Z by lia.
    f_equal. change (2 ^ (prec - 1))%Z with (radix2 ^ (prec - 1))%Z. rewrite IZR_Zpower by lia. reflexivity. }
  rewrite S. assert (F : Zfloor (IZR (2 ^ (prec - 1)) + / 2) = (2 ^ (prec - 1))%Z).
  { apply Zfloor_imp. rewrite plus_IZR. lra. }
  assert (Z : ZnearestE (IZR (2 ^ (prec - 1)) + / 2) = (2 ^ (prec - 1))%Z).
  { unfold ZnearestE, Znearest. rewrite F. rewrite Rcompare_Eq by lra.
    replace (2 ^ (prec - 1))%Z with (2 * 2 ^ (prec - 2))%Z.
    - rewrite Z.even_mul. reflexivity.
    - replace (prec - 1)%Z with (Z.succ (prec - 2)) by lia. rewrite Z.pow_succ_r by lia. reflexivity. }
  rewrite Z. unfold F2R. cbn [Fnum Fexp]. change (2 ^ (prec - 1))%Z with (radix2 ^ (prec - 1))%Z.
  rewrite IZR_Zpower by lia. rewrite <- bpow_plus. f_equal. lia.
Qed.
Lemma rnd_near e z : (2 - emax <= e)%Z -> Rabs z <= bpow radix2 (e + 1) -> Rabs (rnd z - z) <= bpow radix2 (e - prec).
Proof using Hp He.
  intros H Hz. assert (Q : Rabs (rnd z - z) <= / 2 * ulp radix2 fexp z) by (unfold FLemmas.rnd; apply error_le_half_ulp; typeclasses eauto).
  destruct (Req_dec (Rabs z) (bpow radix2 (e + 1))) as [E|N].
  - assert (EZ : rnd z = z).
    { unfold FLemmas.rnd. apply round_generic; [typeclasses eauto|]. apply generic_format_abs_inv. rewrite E.
      apply generic_format_bpow. unfold FLT_exp. unfold Prec_gt_0, Prec_lt_emax in *. lia. }
    rewrite EZ, Rminus_diag_eq, Rabs_R0 by reflexivity. apply bpow_ge_0.
  - eapply Rle_trans; [exact Q|]. destruct (Req_dec z 0) as [-> |Nz].
    + rewrite ulp_FLT_0 by auto. apply Rle_trans with (/ 2 * bpow radix2 (e + 1 - prec)).
      * apply Rmult_le_compat_l; [lra|]. apply bpow_le. lia.
      * replace (e + 1 - prec)%Z with (e - prec + 1)%Z by lia. rewrite bpow_plus_1. change (IZR radix2) with 2. lra.
    + rewrite ulp_neq_0 by auto. unfold cexp. assert (M : (mag radix2 z <= e + 1)%Z) by (apply mag_le_bpow; auto; lra).
      apply Rle_trans with (/ 2 * bpow radix2 (e + 1 - prec)).
      * apply Rmult_le_compat_l; [lra|]. apply bpow_le. unfold FLT_exp. lia.
      * replace (e + 1 - prec)%Z with (e - prec + 1)%Z by lia. rewrite bpow_plus_1. change (IZR radix2) with 2. lra.
Qed.
Lemma below_top e (y : R) : (2 <= prec)%Z -> (2 - emax <= e)%Z -> - bpow radix2 e <= y <= bpow radix2 e ->
  rnd (y + rnd (bpow radix2 e - y)) <= bpow radix2 e.
Proof using Hp He.
  intros P2 H Hy. rewrite <- (rnd_half_above e P2 H) at 2. apply rnd_le; auto.
  assert (Q := rnd_near e (bpow radix2 e - y) H). rewrite bpow_plus_1 in Q. change (IZR radix2) with 2 in Q.
  specialize (Q ltac:(apply Rabs_le; lra)). apply Rabs_le_inv in Q. lra.
Qed.
Lemma rnd_neg x : rnd (- x) = - rnd x.
Proof using. unfold FLemmas.rnd. apply round_NE_opp. Qed.
Lemma top_lt e : (e < emax)%Z -> bpow radix2 e < bpow radix2 emax.
Proof using. apply bpow_lt. Qed.
Lemma kept_positive e : (2 <= prec)%Z -> (2 - emax <= e < emax)%Z -> kept 0 (bpow radix2 e).
Proof using Hp He.
  intros P2 H. assert (B0 := bpow_gt_0 radix2 e). assert (B1 := top_lt e ltac:(lia)). unfold kept.
  rewrite Rminus_0_r, rnd_bpow, Rabs_R0, Rabs_pos_eq by (try lra; unfold Prec_gt_0 in Hp; lia).
  split; [lra|]. split; [lra|]. split; [lra|]. split; [lra|].
  intros y Fy Hy. split; [apply below_top; try lia; lra|]. rewrite Rminus_0_l, rnd_neg, rnd_id by auto.
  rewrite Rplus_opp_r, rnd_0 by auto. lra.
Qed.
Lemma kept_symmetric e : (2 <= prec)%Z -> (2 - emax <= e < emax - 1)%Z -> kept (- bpow radix2 e) (bpow radix2 e).
Proof using Hp He.
  intros P2 H. assert (B0 := bpow_gt_0 radix2 e). assert (B1 := top_lt e ltac:(lia)). assert (B2 := top_lt (e + 1) ltac:(lia)). unfold kept.
  assert (E : bpow radix2 e - - bpow radix2 e = bpow radix2 (e + 1)) by (rewrite bpow_plus_1; change (IZR radix2) with 2; ring).
  rewrite E, rnd_bpow by (unfold Prec_gt_0 in Hp; lia). rewrite Rabs_Ropp, !Rabs_pos_eq by (apply bpow_ge_0).
  split; [lra|]. split; [lra|]. split; [lra|]. split; [lra|].
  intros y Fy Hy. split; [apply below_top; try lia; lra|].
  assert (Q := below_top e (- B2R y) P2 ltac:(lia) ltac:(lra)).
  replace (bpow radix2 e - - B2R y) with (- (- bpow radix2 e - B2R y)) in Q by ring. rewrite rnd_neg in Q.
  replace (- B2R y + - rnd (- bpow radix2 e - B2R y)) with (- (B2R y + rnd (- bpow radix2 e - B2R y))) in Q by ring.
  rewrite rnd_neg in Q. lra.
Qed.

(** The interpolators. *)
Theorem rectilinear_kept c grids vals eval x m M : float_rectilinear Hp He c grids vals eval ->
  length x = length grids -> Forall (increasing_grid o) grids -> Forall (Forall (@moderate prec emax)) grids ->
  Forall2 (inside_grid Hp He) grids x -> kept m M -> Forall (fun v => fin v /\ m <= B2R v <= M) vals ->
  exists v, eval x = Ok v /\ fin v /\ m <= B2R v <= M.
Proof using Hp He.
  intros H Lx I S P HK C. destruct (float_rectilinear_inv _ _ _ _ _ _ _ _ H) as (W & E). rewrite E by auto.
  eexists. split; [reflexivity|]. unfold mlc_value. destruct (rect_wf_dims W) as (L & _). rewrite <- L.
  assert (T := tens_inv prec emax 2 (entry (fzero o) (g_dims (mkRect grids (map zlen grids) vals)) vals)).
  apply T with (P := fun _ v => fin v /\ m <= B2R v <= M).
  - apply rect_cells_foot; auto.
  - intros s Hs. rewrite Forall_forall in C. apply C. apply entry_in; auto. apply W.
  - intros k vs Hk Lv Hvs. destruct vs as [|y0 [|y1 [|]]]; try discriminate Lv.
    apply Forall_cons_iff in Hvs as ((F0 & H0) & Hvs). apply Forall_cons_iff in Hvs as ((F1 & H1) & _).
    assert (Hk' : (k < length grids)%nat) by (rewrite L in Hk; exact Hk).
    assert (D : (2 <= zlen (nth k grids []))%Z) by (destruct W as (_ & _ & D & _); apply (Forall_nth_lt [] D); auto).
    destruct (inside_ends prec emax Hp He (nth k grids []) (nth k x (fzero o)) (fzero o)) as (Fx & X0 & X1);
      [lia|eapply Forall2_nth_lt; eauto|].
    destruct (inside_cell prec emax Hp He (nth k grids []) (nth k x (fzero o)) (fzero o)) as (a & b & Ea & Eb & Sa & Sb & Sx & B & B'); auto.
    { apply (Forall_nth_lt [] I Hk'). } { apply (Forall_nth_lt [] S Hk'). }
    destruct (position_range prec emax Hp He a b _ Sa Sb Sx B B') as (Ft & _ & Ht & _).
    apply (nth_error_nth _ _ (fzero o)) in Ea. apply (nth_error_nth _ _ (fzero o)) in Eb. rewrite <- Ea, <- Eb in Ft, Ht.
    apply lerp_kept; auto.
Qed.

(** Regular grids that start at 0 with a step that is a power of two: the positions are in [0, 1]. *)
Lemma scaled_floor (x : fl) e : (2 <= prec)%Z -> fin x -> 0 <= B2R x ->
  0 <= rnd (B2R x / bpow radix2 e) /\ Zfloor (rnd (B2R x / bpow radix2 e)) = Zfloor (B2R x / bpow radix2 e).
Proof using Hp He.
  intros P2 Fx X0. assert (B0 := bpow_gt_0 radix2 e).
  assert (W0 : 0 <= B2R x / bpow radix2 e) by (apply Rmult_le_pos; [lra|left; apply Rinv_0_lt_compat; lra]).
  split; [apply rnd_nonneg; auto|].
  assert (Ew : B2R x / bpow radix2 e = B2R x * bpow radix2 (- e)) by (rewrite bpow_opp; reflexivity).
  destruct (Z_le_gt_dec (emin + prec - mag radix2 (B2R x)) (- e)) as [C|C].
  - f_equal. unfold FLemmas.rnd. apply round_generic; [typeclasses eauto|]. rewrite Ew.
    apply mult_bpow_exact_FLT; auto. apply generic_format_B2R.
  - assert (L : B2R x <= bpow radix2 (e + 2 - emax)).
    { eapply Rle_trans; [apply Rle_abs|]. eapply Rle_trans; [apply Rlt_le; apply (bpow_mag_gt radix2)|]. apply bpow_le. lia. }
    assert (H : B2R x / bpow radix2 e <= / 2).
    { rewrite Ew. change (/ 2) with (bpow radix2 (-1)). apply Rle_trans with (bpow radix2 (e + 2 - emax) * bpow radix2 (- e)).
      - apply Rmult_le_compat_r; [apply bpow_ge_0|exact L].
      - rewrite <- bpow_plus. apply bpow_le. unfold Prec_lt_emax in He. lia. }
    assert (H' : rnd (B2R x / bpow radix2 e) <= / 2).
    { change (/ 2) with (bpow radix2 (-1)) in *. rewrite <- (rnd_bpow (-1)) by (unfold Prec_lt_emax in He; lia). apply rnd_le; auto. }
    assert (0 <= rnd (B2R x / bpow radix2 e)) by (apply rnd_nonneg; auto).
    rewrite !(Zfloor_imp 0) by (simpl; lra). reflexivity.
Qed.
Lemma pixel_position fma (start h x : fl) d : (2 <= prec <= 63)%Z -> (2 <= d)%Z -> pixel_axis prec emax start h d -> fin x ->
  0 <= B2R x <= B2R h * IZR (d - 1) ->
  exists i, reg_cell o start h d x = Ok i /\ let t := reg_dtp o fma start h x i in fin t /\ 0 <= B2R t <= 1.
Proof using Hp He.
  intros P2 D2 (Fs & Vs & Fh & (e & Vh & He') & Dp) Fx Hx. rewrite Vh in Hx.
  assert (B0 := bpow_gt_0 radix2 e). assert (Xm := fl_lt prec emax x). assert (Hm := fl_lt prec emax h).
  destruct (sub_ok prec emax Hp He x start Fx Fs) as (F1 & V1); [rewrite Vs, Rminus_0_r, rnd_id; auto|].
  rewrite Vs, Rminus_0_r, rnd_id in V1 by auto.
  destruct (scaled_floor x e ltac:(lia) Fx ltac:(lra)) as (R0 & RF). set (w := B2R x / bpow radix2 e) in *.
  assert (Xw : B2R x = w * bpow radix2 e) by (unfold w; field; lra).
  assert (W0 : 0 <= w) by (apply Rmult_le_pos; [lra|left; apply Rinv_0_lt_compat; lra]).
  assert (Wd : w <= IZR (d - 1)) by (apply Rmult_le_reg_r with (bpow radix2 e); [lra|]; rewrite <- Xw; lra).
  assert (ID : IZR (d - 1) <= IZR (2 ^ prec)) by (apply IZR_le; lia).
  assert (E2 : IZR (2 ^ prec) = bpow radix2 prec) by (rewrite <- IZR_Zpower by lia; reflexivity).
  assert (RD : rnd w <= IZR (2 ^ prec)).
  { rewrite E2, <- (rnd_bpow prec) by (unfold Prec_lt_emax in He; lia). apply rnd_le; auto. lra. }
  destruct (div_ok prec emax Hp He (fsub o x start) h F1) as (F2 & V2); [lra|rewrite V1, Vh; fold w; rewrite Rabs_pos_eq by auto|].
  { eapply Rle_lt_trans; [exact RD|]. rewrite E2. apply bpow_lt. exact He. }
  rewrite V1, Vh in V2. fold w in V2.
  assert (T : to_isize o (ffloor o (fdiv o (fsub o x start) h)) = Some (Zfloor w)).
  { rewrite <- RF, <- V2. apply (to_isize_fits prec emax Hp He); auto. rewrite V2. split.
    - apply Rle_trans with 0; [|exact R0]. rewrite <- opp_IZR. apply IZR_le. lia.
    - destruct (Z.eq_dec prec 63) as [E63|N63]; cycle 1.
      + eapply Rle_lt_trans; [exact RD|]. apply IZR_lt. apply Z.pow_lt_mono_r; lia.
      + assert (Q : (Zfloor w < 2 ^ 63)%Z).
        { apply lt_IZR. apply Rle_lt_trans with w; [apply Zfloor_lb|]. eapply Rle_lt_trans; [exact Wd|]. apply IZR_lt. rewrite E63 in Dp. lia. }
        rewrite <- RF in Q. assert (Zfloor (rnd w) + 1 <= 2 ^ 63)%Z by lia. apply IZR_le in H. rewrite plus_IZR in H.
        assert (Q' := Zfloor_ub (rnd w)). lra. }
  unfold reg_cell. rewrite T. cbn [ok_or bind]. eexists. split; [reflexivity|].
  set (i := Z.min (Z.max (Zfloor w) 0) (d - 2)).
  assert (FL0 : (0 <= Zfloor w)%Z) by (apply Zfloor_lub; exact W0).
  assert (FLd : (Zfloor w <= d - 1)%Z) by (apply le_IZR; eapply Rle_trans; [apply Zfloor_lb|exact Wd]).
  assert (I0 : (0 <= i <= d - 2)%Z) by (unfold i; lia).
  assert (Iw : IZR i <= w) by (apply Rle_trans with (IZR (Zfloor w)); [apply IZR_le; unfold i; lia|apply Zfloor_lb]).
  assert (Iw' : w <= IZR i + 1).
  { destruct (Z.eq_dec (Zfloor w) (d - 1)) as [Q|Q].
    - replace i with (d - 2)%Z by (unfold i; lia). rewrite <- plus_IZR. replace (d - 2 + 1)%Z with (d - 1)%Z by lia. exact Wd.
    - replace i with (Zfloor w) by (unfold i; lia). left. apply Zfloor_ub. }
  clearbody i.
  destruct (of_usize_some Hp He i) as (n & En). destruct (of_usize_spec En) as (Fn & Vn); [lia|].
  (* the node *)
  assert (G : generic_format radix2 fexp (bpow radix2 e * IZR i)).
  { apply generic_format_FLT. exists (Float radix2 i e); [unfold F2R; simpl; ring| |].
    - cbn [Fnum]. rewrite Z.abs_eq by lia. change (i < 2 ^ prec)%Z. lia.
    - cbn [Fexp]. lia. }
  assert (Gr : rnd (bpow radix2 e * IZR i) = bpow radix2 e * IZR i) by (unfold FLemmas.rnd; apply round_generic; [typeclasses eauto|exact G]).
  assert (I0r : 0 <= IZR i) by (apply IZR_le; lia).
  assert (A0 : 0 <= bpow radix2 e * IZR i) by (apply Rmult_le_pos; lra).
  assert (A1 : bpow radix2 e * IZR i <= B2R x) by (rewrite Xw, Rmult_comm; apply Rmult_le_compat_r; lra).
  assert (A2 : B2R x - bpow radix2 e * IZR i <= bpow radix2 e).
  { rewrite Xw. replace (w * bpow radix2 e - bpow radix2 e * IZR i) with ((w - IZR i) * bpow radix2 e) by ring.
    rewrite <- (Rmult_1_l (bpow radix2 e)) at 2. apply Rmult_le_compat_r; lra. }
  rewrite Rabs_pos_eq in Xm by lra.
  assert (N : exists a, (if fma then fmuladd o h n start else fadd o start (fmul o h n)) = a /\ fin a /\ B2R a = bpow radix2 e * IZR i).
  { destruct fma.
    - destruct (fma_ok prec emax Hp He h n start Fh Fn Fs) as (Fa & Va); rewrite ?Vh, ?Vn, ?Vs, ?Rplus_0_r, ?Gr in *; [rewrite Rabs_pos_eq; lra|]. eauto.
    - destruct (mul_ok prec emax Hp He h n Fh Fn) as (Fm & Vm); [rewrite Vh, Vn, Gr, Rabs_pos_eq; lra|]. rewrite Vh, Vn, Gr in Vm.
      destruct (add_ok prec emax Hp He start (fmul o h n) Fs Fm) as (Fa & Va); rewrite ?Vs, ?Vm, ?Rplus_0_l, ?Gr in *; [rewrite Rabs_pos_eq; lra|]. eauto. }
  destruct N as (a & Ea & Fa & Va). unfold reg_dtp, uf. rewrite En. rewrite Ea. cbv zeta.
  assert (S0 : 0 <= rnd (B2R x - B2R a)) by (apply rnd_nonneg; auto; lra).
  assert (S1 : rnd (B2R x - B2R a) <= bpow radix2 e).
  { rewrite <- (rnd_bpow e) by lia. apply rnd_le; auto. lra. }
  destruct (sub_ok prec emax Hp He x a Fx Fa) as (Fd & Vd); [rewrite Rabs_pos_eq by auto|].
  { eapply Rle_lt_trans; [exact S1|]. rewrite <- Vh. eapply Rle_lt_trans; [apply Rle_abs|exact Hm]. }
  assert (T0 : 0 <= B2R (fsub o x a) / B2R h) by (rewrite Vd, Vh; apply Rmult_le_pos; [lra|left; apply Rinv_0_lt_compat; lra]).
  assert (T1 : B2R (fsub o x a) / B2R h <= 1).
  { rewrite Vd, Vh. apply Rmult_le_reg_r with (bpow radix2 e); [lra|]. unfold Rdiv. rewrite Rmult_assoc, Rinv_l by lra. lra. }
  assert (T2 : 0 <= rnd (B2R (fsub o x a) / B2R h) <= 1).
  { split; [apply rnd_nonneg; auto|]. change 1 with (bpow radix2 0). rewrite <- (rnd_bpow 0) by (unfold Prec_lt_emax in He; lia). apply rnd_le; auto. }
  destruct (div_ok prec emax Hp He (fsub o x a) h Fd) as (Ft & Vt); [lra| |].
  { rewrite Rabs_pos_eq by lra. apply Rle_lt_trans with 1; [lra|]. change 1 with (bpow radix2 0). apply bpow_lt. unfold Prec_lt_emax in He. lia. }
  rewrite Vt. auto.
Qed.

Theorem regular_kept c dims starts steps vals eval x m M : float_regular Hp He c dims starts steps vals eval ->
  length x = length dims -> (2 <= prec <= 63)%Z ->
  (forall k start h d xk, nth_error starts k = Some start -> nth_error steps k = Some h -> nth_error dims k = Some d ->
     nth_error x k = Some xk -> pixel_axis prec emax start h d /\ fin xk /\ 0 <= B2R xk <= B2R h * IZR (d - 1)) ->
  kept m M -> Forall (fun v => fin v /\ m <= B2R v <= M) vals ->
  exists v, eval x = Ok v /\ fin v /\ m <= B2R v <= M.
Proof using Hp He.
  intros H Lx P2 P HK C. destruct (float_regular_inv _ _ _ _ _ _ _ _ _ _ H) as (W & _ & fma & E). rewrite E by auto.
  assert (W' := W). destruct W' as (_ & L1 & L2 & D & _). cbn [r_dims r_starts r_steps] in *.
  assert (CE : forall k, (k < length dims)%nat ->
    exists i, reg_cell o (nth k starts (fzero o)) (nth k steps (fzero o)) (nth k dims 0%Z) (nth k x (fzero o)) = Ok i /\
    let t := reg_dtp o fma (nth k starts (fzero o)) (nth k steps (fzero o)) (nth k x (fzero o)) i in fin t /\ 0 <= B2R t <= 1).
  { intros k Hk. assert (Lk : (k < length x)%nat) by lia. assert (Ls : (k < length starts)%nat) by lia. assert (Lh : (k < length steps)%nat) by lia.
    destruct (P k _ _ _ _ (nth_error_nth_some _ starts k (fzero o) Ls) (nth_error_nth_some _ steps k (fzero o) Lh)
        (nth_error_nth_some _ dims k 0%Z Hk) (nth_error_nth_some _ x k (fzero o) Lk)) as (Q1 & Q2 & Q3).
    apply pixel_position; auto. apply (Forall_nth_lt 0%Z D Hk). }
  destruct (mapM_total _ _ (fun k => reg_cell o (nth k starts (fzero o)) (nth k steps (fzero o)) (nth k dims 0%Z) (nth k x (fzero o))) (seq 0 (length dims))) as (os & Eos).
  { intros k Hk. apply in_seq in Hk. destruct (CE k ltac:(lia)) as (i & -> & _). eauto. }
  assert (Eos' : reg_cells o (mkRegular dims starts steps vals) x = Ok os) by exact Eos.
  rewrite Eos'. cbn [bind]. eexists. split; [reflexivity|]. unfold mlr_value.
  assert (T := tens_inv prec emax 2 (entry (fzero o) (r_dims (mkRegular dims starts steps vals)) vals)).
  apply T with (P := fun _ v => fin v /\ m <= B2R v <= M).
  - eapply reg_cells_foot; eauto.
  - intros s Hs. rewrite Forall_forall in C. apply C. apply entry_in; auto. apply W.
  - intros k vs Hk Lv Hvs. destruct vs as [|y0 [|y1 [|]]]; try discriminate Lv.
    apply Forall_cons_iff in Hvs as ((F0 & H0) & Hvs). apply Forall_cons_iff in Hvs as ((F1 & H1) & _).
    cbn [r_dims r_starts r_steps] in *. assert (Ek := @mapM_snoc_nth _ 0%Z _ _ _ Eos k Hk). cbv beta in Ek.
    destruct (CE k Hk) as (i & Ei & Ft & Ht). rewrite Ei in Ek. injection Ek as <-. apply lerp_kept; auto.
Qed.

(** The Python function, grids not evenly spaced. *)
Theorem python_kept c obs grids vals o0 lin assume atol m M :
  let gs := map nd_data grids in let xs := map nd_data obs in
  good_call 2 o0 obs grids vals -> (1 <= length grids <= 8)%nat -> Forall (increasing_grid o) gs ->
  assume = false -> ~ Forall (evenly_spaced o) gs -> Forall (Forall (@moderate prec emax)) gs ->
  (forall j, (j < length (nd_data o0))%nat -> Forall2 (inside_grid Hp He) gs (point_of (fzero o) xs j)) ->
  kept m M -> Forall (fun v => fin v /\ m <= B2R v <= M) (nd_data vals) ->
  exists r, fst (py_interpn o c obs grids vals "linear" None lin assume false atol) = Ret r /\
  nd_shape r = nd_shape o0 /\ length (nd_data r) = length (nd_data o0) /\
  Forall (fun y => fin y /\ m <= B2R y <= M) (nd_data r).
Proof using Hp He.
  intros gs xs Hc Hn Hi Ha Hne Hm Hx HK HV.
  assert (FT : Forall (first_two_increase o) gs).
  { assert (G2 := proj1 (call_lens o obs grids vals o0 Hc Hn)). unfold gs in *. rewrite Forall_forall in *. intros g Hg. specialize (G2 g Hg). specialize (Hi g Hg).
    destruct g as [|a [|b g]]; simpl in G2; try lia. apply (Hi 0%nat 1%nat); auto. }
  assert (RI := call_rect o c obs grids vals o0 Hc Hn).
  destruct (call_uneven o c obs grids vals o0 lin assume atol Hc Hn FT Ha Hne) as (eval & Hs & Hr).
  assert (Hfl : float_rectilinear Hp He c gs (nd_data vals) eval).
  { destruct Hs as [(s & Es & ->)|(k & s & Es & ->)]; [apply float_rectilinear_flat|apply float_rectilinear_recursive]; auto. }
  assert (HT : forall j, (j < length (nd_data o0))%nat -> exists v, eval (point_of (fzero o) xs j) = Ok v /\ fin v /\ m <= B2R v <= M).
  { intros j Hj. apply (rectilinear_kept c gs (nd_data vals) eval _ m M Hfl); auto. symmetry. eapply Forall2_len. exact (Hx j Hj). }
  destruct Hr as (r & R1 & R2 & R3 & R4).
  - intros j Hj. destruct (HT j Hj) as (y & Ey & _). eauto.
  - exists r. split; [exact R1|]. split; [exact R2|]. split; [exact R3|]. apply Forall_forall. intros y Hy.
    apply (In_nth _ _ (fzero o)) in Hy as (j & Hj & <-). rewrite R3 in Hj. destruct (HT j Hj) as (y & Ey & Fy).
    unfold xs in Ey. rewrite (R4 j Hj) in Ey. rewrite (ok_same _ _ Ey). exact Fy.
Qed.

(** The Python function, grids taken for regular ones. *)
Theorem python_pixel_kept c obs grids vals o0 lin assume atol m M :
  let gs := map nd_data grids in let xs := map nd_data obs in
  good_call 2 o0 obs grids vals -> (1 <= length grids <= 8)%nat -> assume = true \/ Forall (evenly_spaced o) gs ->
  Forall (fun g => pixel_axis prec emax (nth 0 g (fzero o)) (first_step prec emax Hp He g) (zlen g)) gs ->
  (forall j, (j < length (nd_data o0))%nat ->
     Forall2 (fun g x => fin x /\ 0 <= B2R x <= B2R (first_step prec emax Hp He g) * IZR (zlen g - 1)) gs (point_of (fzero o) xs j)) ->
  (2 <= prec <= 63)%Z -> kept m M -> Forall (fun v => fin v /\ m <= B2R v <= M) (nd_data vals) ->
  exists r, fst (py_interpn o c obs grids vals "linear" None lin assume false atol) = Ret r /\
  nd_shape r = nd_shape o0 /\ length (nd_data r) = length (nd_data o0) /\
  Forall (fun y => fin y /\ m <= B2R y <= M) (nd_data r).
Proof using Hp He.
  intros gs xs Hc Hn Ha Hp' Hx P2 HK HV.
  assert (SP : Forall (fun h => flt o (fzero o) h = true) (spacings o (fzero o) gs)).
  { unfold spacings. rewrite Forall_map. eapply Forall_impl; [|exact Hp']. intros g (_ & _ & F & (e & V & _) & _).
    apply ltb_fin; auto. unfold first_step in V. rewrite V. apply bpow_gt_0. }
  assert (RI := call_reg o c obs grids vals o0 Hc Hn).
  destruct (call_even o c obs grids vals o0 lin assume atol Hc Hn SP Ha) as (eval & Hs & Hr).
  assert (Hfl : float_regular Hp He c (map zlen gs) (firsts (fzero o) gs) (spacings o (fzero o) gs) (nd_data vals) eval).
  { destruct Hs as [(s & Es & ->)|(k & s & Es & ->)]; [apply float_regular_flat|apply float_regular_recursive]; auto. }
  assert (HT : forall j, (j < length (nd_data o0))%nat -> exists v, eval (point_of (fzero o) xs j) = Ok v /\ fin v /\ m <= B2R v <= M).
  { intros j Hj. specialize (Hx j Hj). apply (regular_kept c _ _ _ (nd_data vals) eval _ m M Hfl); auto.
    - rewrite map_length. symmetry. eapply Forall2_len. exact Hx.
    - intros k start h d xk E1 E2 E3 E4. unfold firsts, spacings in E1, E2. rewrite nth_error_map in E1, E2, E3.
      destruct (nth_error gs k) as [g|] eqn:Eg; cbn [option_map] in *; [|discriminate E1].
      injection E1 as <-. injection E2 as <-. injection E3 as <-.
      rewrite Forall_forall in Hp'. assert (Q := Hp' g (nth_error_In _ _ Eg)). split; [exact Q|].
      clear - Hx Eg E4. revert k Eg E4. induction Hx as [|g' x' l l' Q' R' IH]; intros [|k] Eg E4; cbn [nth_error] in *; try discriminate Eg.
      + injection Eg as <-. injection E4 as <-. exact Q'.
      + eapply IH; eauto. }
  destruct Hr as (r & R1 & R2 & R3 & R4).
  - intros j Hj. destruct (HT j Hj) as (y & Ey & _). eauto.
  - exists r. split; [exact R1|]. split; [exact R2|]. split; [exact R3|]. apply Forall_forall. intros y Hy.
    apply (In_nth _ _ (fzero o)) in Hy as (j & Hj & <-). rewrite R3 in Hj. destruct (HT j Hj) as (y & Ey & Fy).
    unfold xs in Ey. rewrite (R4 j Hj) in Ey. rewrite (ok_same _ _ Ey). exact Fy.
Qed.
End B.
