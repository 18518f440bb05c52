(** Facts about the IEEE instances used by the floating-point theorems. *)
From Coq Require Import Reals Lra ZArith Bool ZifyBool.
From Flocq Require Import Core.Core Relative IEEE754.BinarySingleNaN.
From Verif Require Import Base Ops FInst.
Open Scope R_scope.

Section B.
Variables prec emax : Z.
Context (Hp : Prec_gt_0 prec) (He : Prec_lt_emax prec emax).
Notation fl := (binary_float prec emax).
Notation o := (BOps Hp He).
Notation emin := (3 - emax - prec)%Z.
Notation fexp := (FLT_exp emin prec).
Definition rnd (x : R) : R := round radix2 fexp ZnearestE x.
Notation fin x := (is_finite x = true).

#[local] Instance fexp_valid : Valid_exp fexp.
Proof. apply FLT_exp_valid; auto. Qed.
#[local] Instance rndZ_valid : Valid_rnd ZnearestE.
Proof. apply valid_rnd_N. Qed.

Lemma rnd_le x y : x <= y -> rnd x <= rnd y.
Proof. apply round_le; typeclasses eauto. Qed.
Lemma rnd_0 : rnd 0 = 0.
Proof. apply round_0; typeclasses eauto. Qed.
Lemma rnd_id (x : fl) : rnd (B2R x) = B2R x.
Proof. apply round_generic; [typeclasses eauto|]. apply generic_format_B2R. Qed.
Lemma rnd_le_fl x (y : fl) : x <= B2R y -> rnd x <= B2R y.
Proof. intros. rewrite <- rnd_id. apply rnd_le. auto. Qed.
Lemma rnd_ge_fl x (y : fl) : B2R y <= x -> B2R y <= rnd x.
Proof. intros. rewrite <- (rnd_id y). apply rnd_le. auto. Qed.

Lemma fexp_eq : SpecFloat.fexp prec emax = fexp.
Proof. reflexivity. Qed.

(** Subtraction of finite numbers. *)
Lemma sub_spec (x y : fl) : fin x -> fin y ->
  (fin (fsub o x y) /\ B2R (fsub o x y) = rnd (B2R x - B2R y))
  \/ (fsub o x y = B754_infinity (Bsign x) /\ bpow radix2 emax <= Rabs (rnd (B2R x - B2R y))).
Proof.
  intros Fx Fy. assert (C := Bminus_correct prec emax Hp He mode_NE x y Fx Fy).
  change (round radix2 (SpecFloat.fexp prec emax) (round_mode mode_NE) (B2R x - B2R y)) with (rnd (B2R x - B2R y)) in C.
  destruct (Rlt_bool_spec (Rabs (rnd (B2R x - B2R y))) (bpow radix2 emax)) as [L|L].
  - destruct C as (C1 & C2 & _). left. split; auto.
  - destruct C as (C1 & _). right. split; auto. simpl. 
    cbn [fsub BOps]. destruct (Bminus mode_NE x y) as [|[]| |]; simpl in C1; unfold binary_overflow in C1; simpl in C1;
     destruct (Bsign x); try discriminate; inversion C1; reflexivity.
Qed.

Lemma add_spec (x y : fl) : fin x -> fin y ->
  (fin (fadd o x y) /\ B2R (fadd o x y) = rnd (B2R x + B2R y))
  \/ (fadd o x y = B754_infinity (Bsign x) /\ bpow radix2 emax <= Rabs (rnd (B2R x + B2R y))).
Proof.
  intros Fx Fy. assert (C := Bplus_correct prec emax Hp He mode_NE x y Fx Fy).
  change (round radix2 (SpecFloat.fexp prec emax) (round_mode mode_NE) (B2R x + B2R y)) with (rnd (B2R x + B2R y)) in C.
  destruct (Rlt_bool_spec (Rabs (rnd (B2R x + B2R y))) (bpow radix2 emax)) as [L|L].
  - destruct C as (C1 & C2 & _). left. split; auto.
  - destruct C as (C1 & _). right. split; auto.
    cbn [fadd BOps]. destruct (Bplus mode_NE x y) as [|[]| |]; simpl in C1; unfold binary_overflow in C1; simpl in C1;
     destruct (Bsign x); try discriminate; inversion C1; reflexivity.
Qed.

Lemma mul_spec (x y : fl) : fin x -> fin y ->
  (fin (fmul o x y) /\ B2R (fmul o x y) = rnd (B2R x * B2R y))
  \/ (fmul o x y = B754_infinity (xorb (Bsign x) (Bsign y)) /\ bpow radix2 emax <= Rabs (rnd (B2R x * B2R y))).
Proof.
  intros Fx Fy. assert (C := Bmult_correct prec emax Hp He mode_NE x y).
  change (round radix2 (SpecFloat.fexp prec emax) (round_mode mode_NE) (B2R x * B2R y)) with (rnd (B2R x * B2R y)) in C.
  destruct (Rlt_bool_spec (Rabs (rnd (B2R x * B2R y))) (bpow radix2 emax)) as [L|L].
  - destruct C as (C1 & C2 & _). left. split; auto. cbn [fmul BOps]. rewrite C2, Fx, Fy. reflexivity.
  - right. split; auto.
    cbn [fmul BOps]. destruct (Bmult mode_NE x y) as [|[]| |]; simpl in C; unfold binary_overflow in C; simpl in C;
     destruct (xorb (Bsign x) (Bsign y)); try discriminate; inversion C; reflexivity.
Qed.

Lemma div_spec (x y : fl) : fin x -> B2R y <> 0 ->
  (fin (fdiv o x y) /\ B2R (fdiv o x y) = rnd (B2R x / B2R y))
  \/ (fdiv o x y = B754_infinity (xorb (Bsign x) (Bsign y)) /\ bpow radix2 emax <= Rabs (rnd (B2R x / B2R y))).
Proof.
  intros Fx Fy. assert (C := Bdiv_correct prec emax Hp He mode_NE x y Fy).
  change (round radix2 (SpecFloat.fexp prec emax) (round_mode mode_NE) (B2R x / B2R y)) with (rnd (B2R x / B2R y)) in C.
  destruct (Rlt_bool_spec (Rabs (rnd (B2R x / B2R y))) (bpow radix2 emax)) as [L|L].
  - destruct C as (C1 & C2 & _). left. split; auto. cbn [fdiv BOps]. rewrite C2, Fx. reflexivity.
  - right. split; auto.
    cbn [fdiv BOps]. destruct (Bdiv mode_NE x y) as [|[]| |]; simpl in C; unfold binary_overflow in C; simpl in C;
     destruct (xorb (Bsign x) (Bsign y)); try discriminate; inversion C; reflexivity.
Qed.

(** Comparisons of finite numbers. *)
Lemma ltb_fin (x y : fl) : fin x -> fin y -> (flt o x y = true <-> B2R x < B2R y).
Proof.
  intros Fx Fy. cbn [flt BOps]. rewrite Bltb_correct by auto. split.
  - intros H. destruct (Rlt_bool_spec (B2R x) (B2R y)); auto; discriminate.
  - apply Rlt_bool_true.
Qed.
Lemma leb_fin (x y : fl) : fin x -> fin y -> (fle o x y = true <-> B2R x <= B2R y).
Proof.
  intros Fx Fy. cbn [fle BOps]. rewrite Bleb_correct by auto. split.
  - intros H. destruct (Rle_bool_spec (B2R x) (B2R y)); auto; discriminate.
  - apply Rle_bool_true.
Qed.

(** Finite results come from finite operands. *)
Lemma sub_fin (x y : fl) : fin (fsub o x y) -> fin x /\ fin y.
Proof. cbn [fsub BOps]. destruct x as [|[]| |], y as [|[]| |]; simpl; auto; discriminate. Qed.
Lemma add_fin (x y : fl) : fin (fadd o x y) -> fin x /\ fin y.
Proof. cbn [fadd BOps]. destruct x as [|[]| |], y as [|[]| |]; simpl; auto; discriminate. Qed.
Lemma mul_fin (x y : fl) : fin (fmul o x y) -> fin x /\ fin y.
Proof. cbn [fmul BOps]. destruct x as [|[]| |], y as [|[]| |]; simpl; auto; discriminate. Qed.
Lemma div_fin (x y : fl) : fin (fdiv o x y) -> fin x.
Proof. cbn [fdiv BOps]. destruct x as [|[]| |], y as [|[]| |]; simpl; auto; discriminate. Qed.

(** Floor and conversion to isize. *)
Lemma floor_fin (x : fl) : fin (ffloor o x) <-> fin x.
Proof.
  cbn [ffloor BOps]. destruct (Bnearbyint_correct prec emax He mode_DN x) as (_ & H & _). rewrite H. tauto.
Qed.
Lemma floor_val (x : fl) : B2R (ffloor o x) = IZR (Zfloor (B2R x)).
Proof.
  cbn [ffloor BOps]. destruct (Bnearbyint_correct prec emax He mode_DN x) as (H & _ & _). rewrite H.
  simpl round_mode. unfold round, F2R, scaled_mantissa, cexp, FIX_exp. simpl. rewrite !Rmult_1_r. reflexivity.
Qed.

Lemma to_isize_floor (x : fl) i : to_isize o (ffloor o x) = Some i ->
  fin x /\ i = Zfloor (B2R x) /\ (isize_min <= i <= isize_max)%Z.
Proof.
  assert (Fl := floor_fin x). assert (Vl := floor_val x). set (f := ffloor o x) in *.
  cbn [to_isize BOps]. unfold B_to_isize.
  destruct (is_finite f) eqn:Ff; [|discriminate].
  assert (T : Btrunc f = Zfloor (B2R x)).
  { apply eq_IZR. rewrite Btrunc_correct by auto. rewrite Vl.
    unfold round, F2R, scaled_mantissa, cexp, FIX_exp. simpl. rewrite !Rmult_1_r. rewrite Ztrunc_IZR. reflexivity. }
  rewrite T. destruct (_ && _) eqn:E; [|discriminate]. intros H. inversion H; subst i; clear H.
  split; [tauto|]. split; auto. lia.
Qed.

Lemma of_usize_spec n v : of_usize o n = Some v -> (Z.abs n <= 2 ^ prec)%Z -> fin v /\ B2R v = IZR n.
Proof.
  intros H Hn. cbn [of_usize BOps] in H. inversion H; subst v; clear H.
  assert (C := binary_normalize_correct prec emax Hp He mode_NE n 0 false). cbv zeta in C.
  assert (EF : F2R (Float radix2 n 0) = IZR n) by (unfold F2R; simpl; ring).
  rewrite EF in C.
  assert (G : generic_format radix2 fexp (IZR n)).
  { rewrite <- EF. destruct (Z.eq_dec (Z.abs n) (2 ^ prec)) as [E|E].
    - (* a power of two *)
      assert (G1 : generic_format radix2 fexp (bpow radix2 prec)).
      { apply generic_format_bpow. unfold FLT_exp. unfold Prec_lt_emax, Prec_gt_0 in *. lia. }
      rewrite EF. destruct (Z.abs_eq_or_opp n) as [A|A].
      + replace (IZR n) with (bpow radix2 prec); auto. rewrite <- A, E.
        rewrite <- IZR_Zpower by (unfold Prec_gt_0 in *; lia). reflexivity.
      + replace (IZR n) with (- bpow radix2 prec); [apply generic_format_opp; auto|].
        replace n with (- Z.abs n)%Z by lia. rewrite opp_IZR, E.
        rewrite <- IZR_Zpower by (unfold Prec_gt_0 in *; lia). reflexivity.
    - apply generic_format_FLT. exists (Float radix2 n 0); [reflexivity|cbn [Fnum]; change (radix_val radix2) with 2%Z; lia|cbn [Fexp]].
      unfold Prec_lt_emax, Prec_gt_0 in *. lia. }
  change (round radix2 (SpecFloat.fexp prec emax) (round_mode mode_NE) (IZR n)) with (rnd (IZR n)) in C.
  assert (ER : rnd (IZR n) = IZR n) by (apply round_generic; auto; typeclasses eauto).
  rewrite ER in C. rewrite Rlt_bool_true in C.
  - destruct C as (C1 & C2 & _). split; auto.
  - rewrite <- abs_IZR. apply Rle_lt_trans with (IZR (2 ^ prec)); [apply IZR_le; auto|].
    change 2%Z with (radix_val radix2). rewrite IZR_Zpower by (unfold Prec_gt_0 in *; lia).
    apply bpow_lt. auto.
Qed.

(** Sign and value. *)
Lemma sign_pos (x : fl) : Bsign x = false -> 0 <= B2R x.
Proof. destruct x as [[]|[]| |[]]; simpl; intros; try discriminate; try lra. apply F2R_ge_0; simpl; lia. Qed.
Lemma sign_neg (x : fl) : Bsign x = true -> B2R x <= 0.
Proof. destruct x as [[]|[]| |[]]; simpl; intros; try discriminate; try lra. apply F2R_le_0; simpl; lia. Qed.

(** Result [r] of an operation whose exact value is [v]: rounded, or overflowed to the infinity on
    the right side. *)
Definition rounds (r : fl) (v : R) : Prop :=
  (fin r /\ B2R r = rnd v)
  \/ (r = B754_infinity false /\ bpow radix2 emax <= rnd v)
  \/ (r = B754_infinity true /\ rnd v <= - bpow radix2 emax).

Lemma rnd_nonneg v : 0 <= v -> 0 <= rnd v.
Proof. intros. rewrite <- rnd_0. apply rnd_le; auto. Qed.
Lemma rnd_nonpos v : v <= 0 -> rnd v <= 0.
Proof. intros. rewrite <- rnd_0. apply rnd_le; auto. Qed.

Lemma rounds_over (s : bool) v : (s = false -> 0 <= v) -> (s = true -> v <= 0) ->
  bpow radix2 emax <= Rabs (rnd v) -> rounds (B754_infinity s) v.
Proof.
  intros P N H. right. destruct s; [right|left]; split; auto.
  - assert (A := rnd_nonpos (N eq_refl)). rewrite Rabs_left1 in H by auto. lra.
  - assert (A := rnd_nonneg (P eq_refl)). rewrite Rabs_right in H by lra. lra.
Qed.

Lemma sub_rounds (x y : fl) : fin x -> fin y -> rounds (fsub o x y) (B2R x - B2R y).
Proof.
  intros Fx Fy. destruct (sub_spec x y Fx Fy) as [H|(E & H)]; [left; auto|]. rewrite E.
  assert (C := Bminus_correct prec emax Hp He mode_NE x y Fx Fy).
  change (round radix2 (SpecFloat.fexp prec emax) (round_mode mode_NE) (B2R x - B2R y)) with (rnd (B2R x - B2R y)) in C.
  rewrite Rlt_bool_false in C by auto. destruct C as (_ & C).
  apply rounds_over; auto; intros S; rewrite S in C; symmetry in C.
  - apply negb_false_iff in C. assert (A := sign_pos _ S). assert (B := sign_neg _ C). lra.
  - apply negb_true_iff in C. assert (A := sign_neg _ S). assert (B := sign_pos _ C). lra.
Qed.
Lemma add_rounds (x y : fl) : fin x -> fin y -> rounds (fadd o x y) (B2R x + B2R y).
Proof.
  intros Fx Fy. destruct (add_spec x y Fx Fy) as [H|(E & H)]; [left; auto|]. rewrite E.
  assert (C := Bplus_correct prec emax Hp He mode_NE x y Fx Fy).
  change (round radix2 (SpecFloat.fexp prec emax) (round_mode mode_NE) (B2R x + B2R y)) with (rnd (B2R x + B2R y)) in C.
  rewrite Rlt_bool_false in C by auto. destruct C as (_ & C).
  apply rounds_over; auto; intros S; rewrite S in C; symmetry in C.
  - assert (A := sign_pos _ S). assert (B := sign_pos _ C). lra.
  - assert (A := sign_neg _ S). assert (B := sign_neg _ C). lra.
Qed.
Lemma mul_rounds (x y : fl) : fin x -> fin y -> rounds (fmul o x y) (B2R x * B2R y).
Proof.
  intros Fx Fy. destruct (mul_spec x y Fx Fy) as [H|(E & H)]; [left; auto|]. rewrite E.
  apply rounds_over; auto; intros S; destruct (Bsign x) eqn:Sx, (Bsign y) eqn:Sy; try discriminate;
    try apply sign_pos in Sx; try apply sign_pos in Sy; try apply sign_neg in Sx; try apply sign_neg in Sy; nra.
Qed.
Lemma div_rounds (x y : fl) : fin x -> B2R y <> 0 -> rounds (fdiv o x y) (B2R x / B2R y).
Proof.
  intros Fx Fy. destruct (div_spec x y Fx Fy) as [H|(E & H)]; [left; auto|]. rewrite E.
  assert (P : 0 < B2R y -> 0 < / B2R y) by apply Rinv_0_lt_compat.
  assert (N : B2R y < 0 -> / B2R y < 0) by apply Rinv_lt_0_compat.
  apply rounds_over; auto; intros S; unfold Rdiv; destruct (Bsign x) eqn:Sx, (Bsign y) eqn:Sy; try discriminate;
    try apply sign_pos in Sx; try apply sign_pos in Sy; try apply sign_neg in Sx; try apply sign_neg in Sy.
  1,2,3,4: destruct (Rtotal_order 0 (B2R y)) as [T|[T|T]]; try (exfalso; lra);
    try specialize (P T); try specialize (N T); try nra.
Qed.

(** Comparing a rounded result with a finite number. *)
Lemma rounds_le r v (t : fl) : rounds r v -> fin t -> v <= B2R t -> fle o r t = true.
Proof.
  intros [(F & V)|[(-> & V)|(-> & V)]] Ft H.
  - apply leb_fin; auto. rewrite V. apply rnd_le_fl; auto.
  - exfalso. assert (A := rnd_le_fl t H). assert (B := abs_B2R_lt_emax prec emax t). assert (D := Rle_abs (B2R t)). lra.
  - cbn [fle BOps]. destruct t as [[]| | |[]]; try discriminate; reflexivity.
Qed.
Lemma rounds_ge r v (t : fl) : rounds r v -> fin t -> B2R t <= v -> fle o t r = true.
Proof.
  intros [(F & V)|[(-> & V)|(-> & V)]] Ft H.
  - apply leb_fin; auto. rewrite V. apply rnd_ge_fl; auto.
  - cbn [fle BOps]. destruct t as [[]| | |[]]; try discriminate; reflexivity.
  - exfalso. assert (A := rnd_ge_fl t H). assert (B := abs_B2R_lt_emax prec emax t).
    assert (D := Rle_abs (- B2R t)). rewrite Rabs_Ropp in D. lra.
Qed.
Lemma rounds_not_le r v (s t : fl) : rounds r v -> fin s -> fin t -> B2R s <= v -> B2R t < B2R s -> fle o r t = false.
Proof.
  intros [(F & V)|[(-> & V)|(-> & V)]] Fs Ft H L.
  - destruct (fle o r t) eqn:E; auto. apply leb_fin in E; auto. rewrite V in E. assert (A := rnd_ge_fl s H). lra.
  - cbn [fle BOps]. destruct t as [[]| | |[]]; try discriminate; reflexivity.
  - exfalso. assert (A := rnd_ge_fl s H). assert (B := abs_B2R_lt_emax prec emax s).
    assert (D := Rle_abs (- B2R s)). rewrite Rabs_Ropp in D. lra.
Qed.
Lemma rounds_not_ge r v (s t : fl) : rounds r v -> fin s -> fin t -> v <= B2R s -> B2R s < B2R t -> fle o t r = false.
Proof.
  intros [(F & V)|[(-> & V)|(-> & V)]] Fs Ft H L.
  - destruct (fle o t r) eqn:E; auto. apply leb_fin in E; auto. rewrite V in E. assert (A := rnd_le_fl s H). lra.
  - exfalso. assert (A := rnd_le_fl s H). assert (B := abs_B2R_lt_emax prec emax s). assert (D := Rle_abs (B2R s)). lra.
  - cbn [fle BOps]. destruct t as [[]| | |[]]; try discriminate; reflexivity.
Qed.

Lemma neg_val (x : fl) : B2R (fneg o x) = - B2R x.
Proof. cbn [fneg BOps]. apply B2R_Bopp. Qed.
Lemma neg_fin (x : fl) : is_finite (fneg o x) = is_finite x.
Proof. cbn [fneg BOps]. apply is_finite_Bopp. Qed.

(** A result whose exact value is bounded by a representable power of two does not overflow. *)
Lemma rounds_bound r v e : rounds r v -> (emin <= e < emax)%Z -> Rabs v <= bpow radix2 e ->
  fin r /\ B2R r = rnd v /\ Rabs (B2R r) <= bpow radix2 e.
Proof.
  intros H He' Hv.
  assert (G : generic_format radix2 fexp (bpow radix2 e)).
  { apply generic_format_bpow. unfold FLT_exp. unfold Prec_lt_emax, Prec_gt_0 in *. lia. }
  assert (A : Rabs (rnd v) <= bpow radix2 e).
  { apply abs_round_le_generic; auto; typeclasses eauto. }
  assert (L : bpow radix2 e < bpow radix2 emax) by (apply bpow_lt; lia).
  destruct H as [(F & V)|[(-> & V)|(-> & V)]].
  - rewrite V. auto.
  - exfalso. assert (D := Rle_abs (rnd v)). lra.
  - exfalso. assert (D := Rle_abs (- rnd v)). rewrite Rabs_Ropp in D. lra.
Qed.

Lemma min_fin (a b : fl) : fin a -> fin b -> fin (fmin o a b) /\ B2R (fmin o a b) = Rmin (B2R a) (B2R b).
Proof.
  intros Fa Fb. cbn [fmin BOps]. unfold B_min.
  assert (is_nan a = false) by (destruct a; try discriminate; reflexivity).
  assert (is_nan b = false) by (destruct b; try discriminate; reflexivity). rewrite H, H0.
  assert (T := ltb_fin a b Fa Fb). cbn [flt BOps] in T.
  destruct (Bltb a b); split; auto; unfold Rmin; destruct (Rle_dec _ _); auto.
  - assert (B2R a < B2R b) by (apply T; auto). lra.
  - destruct (Rle_lt_or_eq_dec _ _ r); auto. apply T in r0. discriminate.
Qed.
Lemma max_fin (a b : fl) : fin a -> fin b -> fin (fmax o a b) /\ B2R (fmax o a b) = Rmax (B2R a) (B2R b).
Proof.
  intros Fa Fb. cbn [fmax BOps]. unfold B_max.
  assert (is_nan a = false) by (destruct a; try discriminate; reflexivity).
  assert (is_nan b = false) by (destruct b; try discriminate; reflexivity). rewrite H, H0.
  assert (T := ltb_fin a b Fa Fb). cbn [flt BOps] in T.
  destruct (Bltb a b); split; auto; unfold Rmax; destruct (Rle_dec _ _); auto.
  - assert (B2R a < B2R b) by (apply T; auto). lra.
  - destruct (Rle_lt_or_eq_dec _ _ r); auto. apply T in r0. discriminate.
Qed.

Lemma of_usize_some n : exists v, of_usize o n = Some v.
Proof. cbn [of_usize BOps]. eauto. Qed.

(** Relative error of one rounding. *)
Lemma rnd_error x : exists eps eta, Rabs eps <= / 2 * bpow radix2 (- prec + 1) /\
  Rabs eta <= / 2 * bpow radix2 emin /\ eps * eta = 0 /\ rnd x = x * (1 + eps) + eta.
Proof. apply error_N_FLT. auto. Qed.
End B.
