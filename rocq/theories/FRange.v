(** Floating-point multilinear interpolation does not leave a safe range. *)
From Coq Require Import Reals Lra Lia List Bool ZifyBool ZifyNat PeanoNat String.
From Flocq Require Import Core.Core Relative Sterbenz IEEE754.BinarySingleNaN.
From Verif Require Import Base Ops FInst ModelCore ModelLinear ModelPython Spec SpecOrder SpecIEEE SpecPython SpecDetect SpecPixel SpecMonotone SpecMissing SpecRange.
From Verif Require Import CoreLemmas TensorLemmas MethodLemmas SearchLemmas MethodChar GenLemmas GenProofs OrderLemmas OrderProofs FLemmas UtilProofs FProofs FProofs2 FError FPython FSign FMono FMissing.
Import ListNotations.
Unset Implicit Arguments.
Open Scope string_scope.
Open Scope list_scope.
Open Scope R_scope.

Section B.
Variables prec emax : Z.
Context (Hp : Prec_gt_0 prec) (He : Prec_lt_emax prec emax).
Notation fl := (binary_float prec emax).
Notation o := (BOps Hp He).
Notation emin := (3 - emax - prec)%Z.
Notation fin x := (is_finite x = true).
Notation rnd := (rnd prec emax).
Notation fexp := (FLT_exp emin prec).
Notation kept := (kept prec emax).

Lemma kept_opp m M : kept m M -> kept (- M) (- m).
Proof using Hp He.
  intros (A & B & C & D & K). unfold FSign.kept. replace (- m - - M) with (M - m) by ring. rewrite !Rabs_Ropp.
  split; [lra|]. split; [exact B|]. split; [exact D|]. split; [exact C|]. intros y Fy Hy.
  destruct (K (Bopp y)) as (K1 & K2).
  - rewrite is_finite_Bopp. exact Fy.
  - rewrite B2R_Bopp. lra.
  - rewrite B2R_Bopp in K1, K2. split.
    + replace (- m - B2R y) with (- (m - - B2R y)) by ring. rewrite rnd_neg.
      replace (B2R y + - rnd (m - - B2R y)) with (- (- B2R y + rnd (m - - B2R y))) by ring. rewrite rnd_neg. lra.
    + replace (- M - B2R y) with (- (M - - B2R y)) by ring. rewrite rnd_neg.
      replace (B2R y + - rnd (M - - B2R y)) with (- (- B2R y + rnd (M - - B2R y))) by ring. rewrite rnd_neg. lra.
Qed.

(** Half a unit above a short number rounds to it. *)
Lemma rnd_id_gen x : generic_format radix2 fexp x -> rnd x = x.
Proof using Hp He. intros. unfold FLemmas.rnd. apply round_generic; auto. typeclasses eauto. Qed.
Lemma short_top (M : fl) (y : fl) : 0 < B2R M -> short_number M -> 0 <= B2R y <= B2R M -> rnd (B2R y + rnd (B2R M - B2R y)) <= B2R M.
Proof using Hp He.
  intros P (k & e & Hk & He' & V) Hy. set (x := B2R M) in *.
  assert (P1 : (1 <= prec)%Z) by (unfold Prec_gt_0 in Hp; lia).
  assert (Gx : generic_format radix2 fexp x) by apply generic_format_B2R.
  set (z := x - B2R y). assert (Hz : 0 <= z <= x) by (unfold z; lra).
  set (ex := cexp radix2 fexp x).
  destruct (Z.eq_dec ex emin) as [Em|Em].
  - (* the lowest binade: no rounding *)
    assert (Gz : generic_format radix2 fexp z).
    { assert (Gy : generic_format radix2 fexp (B2R y)) by apply generic_format_B2R.
      apply FLT_format_generic in Gy; auto. destruct Gy as [[ny ey] Ey _ My].
      apply FLT_format_generic in Gx; auto. destruct Gx as [[nx ex'] Ex _ Mx]. cbn [Fnum Fexp] in *.
      assert (Q : z = F2R (Float radix2 (nx * 2 ^ (ex' - emin) - ny * 2 ^ (ey - emin)) emin)).
      { unfold F2R in *. cbn [Fnum Fexp] in *. unfold z. rewrite Ex, Ey, minus_IZR, !mult_IZR.
        change 2%Z with (radix_val radix2). rewrite !IZR_Zpower by lia.
        rewrite Rmult_minus_distr_r, !Rmult_assoc, <- !bpow_plus. replace (ex' - emin + emin)%Z with ex' by lia.
        replace (ey - emin + emin)%Z with ey by lia. reflexivity. }
      destruct (Req_dec z 0) as [Z0|Z0]; [rewrite Z0; apply generic_format_0|].
      rewrite Q. apply generic_format_F2R. intros _. rewrite <- Q. unfold ex, cexp, FLT_exp in *.
      assert (MZ : (mag radix2 z <= mag radix2 x)%Z) by (apply mag_le; lra). lia. }
    rewrite (rnd_id_gen z Gz). unfold z. replace (B2R y + (x - B2R y)) with x by ring. rewrite rnd_id_gen by exact Gx. lra.
  - assert (Cx : ex = (mag radix2 x - prec)%Z) by (unfold ex, cexp, FLT_exp in *; lia).
    assert (MX := bpow_mag_gt radix2 x). assert (ML := bpow_mag_le radix2 x ltac:(lra)). rewrite Rabs_pos_eq in MX, ML by lra.
    (* the significand is even *)
    assert (Me : (mag radix2 x <= prec - 1 + e)%Z).
    { apply mag_le_bpow; [lra|]. rewrite V. rewrite Rabs_mult, <- abs_IZR, (Rabs_pos_eq (bpow radix2 e)) by apply bpow_ge_0.
      rewrite bpow_plus. apply Rmult_lt_compat_r; [apply bpow_gt_0|]. rewrite <- IZR_Zpower by lia. apply IZR_lt. exact Hk. }
    set (h := (k * 2 ^ (e - ex - 1))%Z).
    assert (VX : x = IZR (2 * h) * bpow radix2 ex).
    { rewrite V. unfold h. replace (2 * (k * 2 ^ (e - ex - 1)))%Z with (k * 2 ^ (e - ex))%Z.
      - rewrite mult_IZR. change 2%Z with (radix_val radix2). rewrite IZR_Zpower by lia. rewrite Rmult_assoc, <- bpow_plus. f_equal. f_equal. lia.
      - replace (e - ex)%Z with (Z.succ (e - ex - 1)) at 1 by lia. rewrite Z.pow_succ_r by lia. ring. }
    assert (B0 := bpow_gt_0 radix2 ex).
    set (w := x + / 2 * bpow radix2 ex).
    assert (T : (2 * h < 2 ^ prec)%Z).
    { apply lt_IZR. change 2%Z with (radix_val radix2) at 2. rewrite IZR_Zpower by lia.
      apply Rmult_lt_reg_r with (bpow radix2 ex); [exact B0|]. rewrite <- VX, <- bpow_plus. replace (prec + ex)%Z with (mag radix2 x : Z) by lia. exact MX. }
    assert (Mw : mag radix2 w = mag radix2 x :> Z).
    { apply mag_unique. rewrite Rabs_pos_eq by (unfold w; lra). split; [unfold w; lra|].
      apply Rlt_le_trans with ((IZR (2 * h) + 1) * bpow radix2 ex).
      - unfold w. rewrite VX. lra.
      - replace (mag radix2 x : Z) with (prec + ex)%Z by lia. rewrite bpow_plus. apply Rmult_le_compat_r; [lra|].
        rewrite <- plus_IZR, <- IZR_Zpower by lia. apply IZR_le. change (radix2 ^ prec)%Z with (2 ^ prec)%Z. lia. }
    assert (Cw : cexp radix2 fexp w = ex) by (unfold ex, cexp; rewrite Mw; reflexivity).
    assert (RW : rnd w = x).
    { unfold FLemmas.rnd, round. unfold scaled_mantissa. rewrite Cw.
      assert (S : w * bpow radix2 (- ex) = IZR (2 * h) + / 2).
      { unfold w. rewrite VX. rewrite Rmult_plus_distr_r, !Rmult_assoc, <- bpow_plus. replace (ex + - ex)%Z with 0%Z by lia. change (bpow radix2 0) with 1. ring. }
      rewrite S. assert (F : Zfloor (IZR (2 * h) + / 2) = (2 * h)%Z) by (apply Zfloor_imp; rewrite plus_IZR; lra).
      assert (Z : ZnearestE (IZR (2 * h) + / 2) = (2 * h)%Z).
      { unfold ZnearestE, Znearest. rewrite F. rewrite Rcompare_Eq by lra. rewrite Z.even_mul. reflexivity. }
      rewrite Z. unfold F2R. cbn [Fnum Fexp]. symmetry. exact VX. }
    apply Rle_trans with (rnd w); [|right; exact RW]. apply rnd_le; auto.
    assert (Q : Rabs (rnd z - z) <= / 2 * ulp radix2 fexp z) by (unfold FLemmas.rnd; apply error_le_half_ulp; typeclasses eauto).
    assert (U : ulp radix2 fexp z <= bpow radix2 ex).
    { replace (bpow radix2 ex) with (ulp radix2 fexp x) by (rewrite ulp_neq_0 by lra; reflexivity). apply ulp_le_pos; try typeclasses eauto; lra. }
    apply Rabs_le_inv in Q. unfold w. unfold z in *. lra.
Qed.
Lemma kept_short (M : fl) : fin M -> 0 <= B2R M -> short_number M -> kept 0 (B2R M).
Proof using Hp He.
  intros FM PM HM. assert (OM := fl_lt prec emax M). unfold FSign.kept. rewrite Rminus_0_r, rnd_id, Rabs_R0 by auto.
  split; [exact PM|]. split; [exact OM|]. split; [apply bpow_gt_0|]. split; [exact OM|]. intros y Fy Hy.
  assert (L : 0 <= rnd (B2R y + rnd (0 - B2R y))) by (rewrite Rminus_0_l, rnd_neg, rnd_id, Rplus_opp_r, rnd_0 by auto; lra).
  split; [|exact L]. destruct (Req_dec (B2R M) 0) as [Z|N].
  - assert (E : B2R y = 0) by lra. rewrite E, Z, Rminus_0_r, (rnd_0 prec emax), Rplus_0_r, (rnd_0 prec emax) by auto. lra.
  - apply short_top; auto. lra.
Qed.
Lemma kept_double (m M : fl) : 0 < B2R m -> B2R m <= B2R M <= 2 * B2R m -> kept (B2R m) (B2R M).
Proof using Hp He.
  intros Pm H. assert (Om := fl_lt prec emax m). assert (OM := fl_lt prec emax M).
  assert (G : forall a b : fl, B2R m <= B2R a <= B2R M -> B2R m <= B2R b <= B2R M -> rnd (B2R a - B2R b) = B2R a - B2R b).
  { intros a b Ha Hb. apply rnd_id_gen. apply sterbenz; try typeclasses eauto; try apply generic_format_B2R. lra. }
  unfold FSign.kept. split; [lra|]. split.
  { rewrite G by lra. rewrite Rabs_pos_eq in OM by lra. rewrite Rabs_pos_eq; lra. }
  split; [exact Om|]. split; [exact OM|]. intros y Fy Hy. rewrite !G by lra.
  replace (B2R y + (B2R M - B2R y)) with (B2R M) by ring. replace (B2R y + (B2R m - B2R y)) with (B2R m) by ring.
  rewrite !rnd_id by auto. lra.
Qed.
Lemma safe_kept (lo hi : fl) : safe_range lo hi -> kept (B2R lo) (B2R hi).
Proof using Hp He.
  intros (Fl & Fh & L & [(E & S)|[(E & S)|[(P & D)|(P & D)]]]).
  - rewrite E in *. apply kept_short; auto.
  - rewrite E in *. destruct S as (k & e & S1 & S2 & S3). assert (K := kept_short (Bopp lo)). rewrite B2R_Bopp, is_finite_Bopp in K.
    specialize (K Fl ltac:(lra)). replace 0 with (- 0) by ring. replace (B2R lo) with (- - B2R lo) by ring. apply kept_opp. apply K.
    exists (- k)%Z, e. rewrite Z.abs_opp. split; [exact S1|]. split; [exact S2|]. rewrite B2R_Bopp, opp_IZR, S3. ring.
  - apply kept_double; lra.
  - assert (K := kept_double (Bopp hi) (Bopp lo)). rewrite !B2R_Bopp in K. specialize (K ltac:(lra) ltac:(lra)).
    apply kept_opp in K. rewrite !Ropp_involutive in K. exact K.
Qed.

(** Only the corners of the cell matter. *)
Lemma tens_corner V nd origin n (P : fl -> Prop) : length origin = n ->
  (forall s, corner origin s -> P (V s)) ->
  (forall k vs, (k < n)%nat -> length vs = 2%nat -> Forall P vs -> P (nd k vs)) ->
  P (tens 2 V nd origin n []).
Proof using.
  intros L H0 HS. 
  assert (G : forall k suf, (k <= n)%nat -> in_foot 2 origin k suf -> P (tens 2 V nd origin k suf)).
  { induction k as [|k IH]; intros suf Hk Hs; cbn [tens map seq].
    - apply H0. destruct Hs as (Ls & Hs). apply Forall2_nth_intro with (da := 0%Z) (db := 0%Z); [lia|].
      intros j Hj. specialize (Hs j ltac:(lia)). cbn [Nat.add] in Hs. lia.
    - apply HS; [lia|reflexivity|].
      repeat (apply Forall_cons; [apply IH; [lia|]; apply in_foot_cons; auto; lia|]). apply Forall_nil. }
  apply G; [lia|]. rewrite <- L. apply in_foot_nil.
Qed.
Theorem rectilinear_range c grids vals eval x cells (lo hi : fl) : float_rectilinear Hp He c grids vals eval ->
  Forall (increasing_grid o) grids -> Forall (Forall (@moderate prec emax)) grids ->
  Forall2 (inside_grid Hp He) grids x -> rectilinear_cells o grids x cells -> safe_range lo hi ->
  (forall idx, corner cells idx -> let v := entry (fzero o) (map zlen grids) vals idx in fin v /\ B2R lo <= B2R v <= B2R hi) ->
  exists v, eval x = Ok v /\ fin v /\ B2R lo <= B2R v <= B2R hi.
Proof using Hp He.
  intros H I S P HC HK C. assert (Lx : length x = length grids) by (symmetry; eapply Forall2_len; eauto).
  destruct (float_rectilinear_inv _ _ _ _ _ _ _ _ H) as (W & E). rewrite E by auto.
  eexists. split; [reflexivity|]. unfold mlc_value. cbn [g_dims g_vals g_grids].
  apply tens_corner with (P := fun v => fin v /\ B2R lo <= B2R v <= B2R hi).
  - rewrite rect_cells_length. reflexivity.
  - intros s Hs. apply C.
    assert (Q : rect_cells o (mkRect grids (map zlen grids) vals) x = cells).
    { destruct HC as (Lc & HC). apply nth_ext with (d := 0%Z) (d' := 0%Z); rewrite rect_cells_length; cbn [g_grids]; [lia|].
      intros k Hk. rewrite rect_cells_nth by exact Hk. cbn [g_grids].
      apply (rect_named _ _ Hp He 2 grids vals x cells ltac:(lia) W I (conj Lc HC) k Hk). }
    rewrite Q in Hs. exact Hs.
  - intros k vs Hk Lv Hvs. destruct vs as [|y0 [|y1 [|]]]; try discriminate Lv.
    apply Forall_cons_iff in Hvs as ((F0 & H0) & Hvs). apply Forall_cons_iff in Hvs as ((F1 & H1) & _).
    assert (D : (2 <= zlen (nth k grids []))%Z) by (destruct W as (_ & _ & D & _); apply (Forall_nth_lt [] D); auto).
    destruct (inside_ends prec emax Hp He (nth k grids []) (nth k x (fzero o)) (fzero o)) as (Fx & X0 & X1);
      [lia|eapply Forall2_nth_lt; eauto|].
    destruct (inside_cell prec emax Hp He (nth k grids []) (nth k x (fzero o)) (fzero o)) as (a & b & Ea & Eb & Sa & Sb & Sx & B & B'); auto.
    { apply (Forall_nth_lt [] I Hk). } { apply (Forall_nth_lt [] S Hk). }
    destruct (position_range prec emax Hp He a b _ Sa Sb Sx B B') as (Ft & _ & Ht & _).
    apply (nth_error_nth _ _ (fzero o)) in Ea. apply (nth_error_nth _ _ (fzero o)) in Eb. rewrite <- Ea, <- Eb in Ft, Ht.
    apply lerp_kept; auto. apply safe_kept. exact HK.
Qed.
Theorem pixel_range c dims starts steps vals eval x cells (lo hi : fl) : float_regular Hp He c dims starts steps vals eval ->
  (2 <= prec <= 63)%Z -> regular_cells Hp He dims starts steps x cells ->
  (forall k start h d xk, nth_error starts k = Some start -> nth_error steps k = Some h -> nth_error dims k = Some d ->
     nth_error x k = Some xk -> pixel_axis prec emax start h d /\ fin xk /\ 0 <= B2R xk <= B2R h * IZR (d - 1)) ->
  safe_range lo hi ->
  (forall idx, corner cells idx -> let v := entry (fzero o) dims vals idx in fin v /\ B2R lo <= B2R v <= B2R hi) ->
  exists v, eval x = Ok v /\ fin v /\ B2R lo <= B2R v <= B2R hi.
Proof using Hp He.
  intros H P2 HC P HK C. assert (Lx : length x = length dims) by apply HC.
  destruct (float_regular_inv _ _ _ _ _ _ _ _ _ _ H) as (W & _ & fma & E). rewrite E by auto.
  assert (W' := W). destruct W' as (_ & L1 & L2 & D & _). cbn [r_dims r_starts r_steps] in *.
  assert (CE : forall k, (k < length dims)%nat ->
    exists i, reg_cell o (nth k starts (fzero o)) (nth k steps (fzero o)) (nth k dims 0%Z) (nth k x (fzero o)) = Ok i /\
    let t := reg_dtp o fma (nth k starts (fzero o)) (nth k steps (fzero o)) (nth k x (fzero o)) i in fin t /\ 0 <= B2R t <= 1).
  { intros k Hk. assert (Lk : (k < length x)%nat) by lia. assert (Ls : (k < length starts)%nat) by lia. assert (Lh : (k < length steps)%nat) by lia.
    destruct (P k _ _ _ _ (nth_error_nth_some _ starts k (fzero o) Ls) (nth_error_nth_some _ steps k (fzero o) Lh)
        (nth_error_nth_some _ dims k 0%Z Hk) (nth_error_nth_some _ x k (fzero o) Lk)) as (Q1 & Q2 & Q3).
    apply pixel_position; auto. apply (Forall_nth_lt 0%Z D Hk). }
  destruct (mapM_total _ _ (fun k => reg_cell o (nth k starts (fzero o)) (nth k steps (fzero o)) (nth k dims 0%Z) (nth k x (fzero o))) (seq 0 (length dims))) as (os & Eos).
  { intros k Hk. apply in_seq in Hk. destruct (CE k ltac:(lia)) as (i & -> & _). eauto. }
  assert (Eos' : reg_cells o (mkRegular dims starts steps vals) x = Ok os) by exact Eos.
  assert (Ft : foot_in 2 (r_dims (mkRegular dims starts steps vals)) os) by (eapply reg_cells_foot; eauto). assert (Lo := foot_in_length Ft). cbn [r_dims] in Lo.
  rewrite Eos'. cbn [bind]. eexists. split; [reflexivity|]. unfold mlr_value. cbn [r_dims r_vals r_starts r_steps].
  apply tens_corner with (P := fun v => fin v /\ B2R lo <= B2R v <= B2R hi).
  - lia.
  - intros s Hs. apply C. assert (Q : os = cells).
    { apply nth_ext with (d := 0%Z) (d' := 0%Z); [destruct HC; lia|]. intros k Hk.
      apply (reg_named _ _ Hp He dims starts steps vals x cells os W HC Eos'). lia. }
    rewrite Q in Hs. exact Hs.
  - intros k vs Hk Lv Hvs. destruct vs as [|y0 [|y1 [|]]]; try discriminate Lv.
    apply Forall_cons_iff in Hvs as ((F0 & H0) & Hvs). apply Forall_cons_iff in Hvs as ((F1 & H1) & _).
    assert (Ek := @mapM_snoc_nth _ 0%Z _ _ _ Eos k Hk). cbv beta in Ek.
    destruct (CE k Hk) as (i & Ei & Ft' & Ht). rewrite Ei in Ek. injection Ek as <-. apply lerp_kept; auto. apply safe_kept. exact HK.
Qed.

Theorem constant_cell c grids vals eval x cells (w : fl) : float_rectilinear Hp He c grids vals eval ->
  Forall (increasing_grid o) grids -> Forall (Forall (@moderate prec emax)) grids ->
  Forall2 (inside_grid Hp He) grids x -> rectilinear_cells o grids x cells -> fin w ->
  (forall idx, corner cells idx -> entry (fzero o) (map zlen grids) vals idx = w) ->
  exists v, eval x = Ok v /\ is_real v (B2R w).
Proof using Hp He.
  intros H I S P HC Fw C. destruct (rectilinear_range c grids vals eval x cells w w H I S P HC) as (v & E & F & V).
  - split; [exact Fw|]. split; [exact Fw|]. split; [lra|]. destruct (Rtotal_order (B2R w) 0) as [N|[Z|N]]; [right; right; right; lra| |right; right; left; lra].
    left. split; [exact Z|]. exists 0%Z, emin. split; [change (Z.abs 0) with 0%Z; apply Z.pow_pos_nonneg; unfold Prec_gt_0 in Hp; lia|].
    split; [lia|]. rewrite Z. ring.
  - intros idx Hi. cbv zeta. rewrite (C idx Hi). split; [exact Fw|lra].
  - exists v. split; [exact E|]. split; [exact F|]. lra.
Qed.

(** Differences of numbers within a factor of two are exact. *)
Lemma double_differences (lo hi : fl) vals : safe_range lo hi -> B2R lo <> 0 -> B2R hi <> 0 ->
  Forall (fun v : fl => fin v /\ B2R lo <= B2R v <= B2R hi) vals -> exact_differences Hp He vals.
Proof using Hp He.
  intros (Fl & Fh & L & C) N0 N1 HV. rewrite Forall_forall in HV.
  assert (G : forall a b : fl, In a vals -> In b vals -> rnd (B2R a - B2R b) = B2R a - B2R b).
  { intros a b Ha Hb. apply HV in Ha as (_ & Ha). apply HV in Hb as (_ & Hb). apply rnd_id_gen.
    destruct C as [(E & _)|[(E & _)|[(P & D)|(P & D)]]]; try lra.
    - apply sterbenz; try typeclasses eauto; try apply generic_format_B2R. lra.
    - replace (B2R a - B2R b) with (- B2R b - - B2R a) by ring. apply sterbenz; try typeclasses eauto; try (apply generic_format_opp; apply generic_format_B2R). lra. }
  intros v w Hv Hw. assert (Q := G v w Hv Hw). apply HV in Hv as (Fv & Hv). apply HV in Hw as (Fw & Hw).
  destruct (sub_ok prec emax Hp He v w Fv Fw) as (F & V).
  { rewrite Q. assert (A := fl_lt prec emax lo). assert (B := fl_lt prec emax hi). apply Rabs_def2 in A. apply Rabs_def2 in B.
    apply Rabs_def1; lra. }
  split; [exact F|]. rewrite V. exact Q.
Qed.
End B.

(** Single precision numbers. *)
Lemma short_single (v : f64) (u : f32) : is_finite u = true -> B2R v = B2R u -> short_number v.
Proof.
  intros _ V. assert (G := generic_format_B2R 24 128 u). apply FLT_format_generic in G; [|reflexivity].
  destruct G as [[n e] E B M]. cbn [Fnum Fexp] in *. exists n, e.
  split; [eapply Z.lt_trans; [exact B|reflexivity]|]. split; [change (-149 <= e)%Z in M; lia|]. rewrite V, E. reflexivity.
Qed.
