(** linspace over the IEEE instances: the points are close to evenly spaced, in order, and the
    grid is accepted when the spacing is larger than the rounding errors. *)
From Coq Require Import Reals Lra Lia List Bool ZifyBool ZifyNat PeanoNat Psatz.
From Flocq Require Import Core.Core Relative IEEE754.BinarySingleNaN.
From Verif Require Import Base Ops FInst ModelCore ModelLinear ModelCubic ModelUtils Spec SpecOrder SpecIEEE SpecError SpecLinspace.
From Verif Require Import CoreLemmas GenLemmas GenProofs OrderLemmas FLemmas UtilProofs FError.
Import ListNotations.
Unset Implicit Arguments.
Open Scope list_scope.
Open Scope R_scope.

Section B.
Variables prec emax : Z.
Context (Hp : Prec_gt_0 prec) (He : Prec_lt_emax prec emax).
Notation fl := (binary_float prec emax).
Notation o := (BOps Hp He).
Notation emin := (3 - emax - prec)%Z.
Notation fin x := (is_finite x = true).
Notation rnd := (rnd prec emax).
Notation u := (roundoff prec).
Notation eta := (underflow prec emax).
Notation zero := (fzero o).

Lemma linspace_run c (a b : fl) n : (8 <= emax)%Z -> (2 <= n)%nat -> (Z.of_nat n < two64)%Z -> (Z.of_nat n <= 2 ^ prec)%Z ->
  fin a -> fin b -> Rabs (B2R a) <= bpow radix2 (emax - 5) -> Rabs (B2R b) <= bpow radix2 (emax - 5) ->
  exists l dx, linspace o c a b n = Ok l /\ length l = n /\
    dx = rnd (rnd (B2R b - B2R a) / IZR (Z.of_nat n - 1)) /\ (exists f : fl, B2R f = dx) /\
    forall i, (i < n)%nat -> fin (nth i l zero) /\
      B2R (nth i l zero) = rnd (B2R a + rnd (IZR (Z.of_nat i) * dx)).
Proof.
  intros H8 Hn Hb Hpn Fa Fb Ba Bb.
  destruct (@linspace_any _ o c a b n (usize_converts_B Hp He) ltac:(lia) Hb) as (l & E & L & m & Em & H).
  destruct (@of_usize_spec _ _ Hp He _ _ Em ltac:(lia)) as (Fm & Vm).
  assert (Pm : 1 <= B2R m) by (rewrite Vm; apply IZR_le; lia).
  assert (EM : forall e, bpow radix2 (e + 1) = 2 * bpow radix2 e) by (intros; rewrite bpow_plus_1; reflexivity).
  assert (Eb : Rabs (B2R b - B2R a) <= bpow radix2 (emax - 4)).
  { replace (emax - 4)%Z with (emax - 5 + 1)%Z by lia. rewrite EM.
    unfold Rminus. eapply Rle_trans; [apply Rabs_triang|]. rewrite Rabs_Ropp. lra. }
  assert (Hp' := Hp). assert (He' := He). unfold Prec_gt_0, Prec_lt_emax in Hp', He'.
  destruct (@rounds_bound _ _ Hp _ _ (emax - 4) (sub_rounds Hp He b a Fb Fa) ltac:(lia) Eb) as (Fs & Vs & Bs).
  assert (Ed1 : Rabs (B2R (fsub o b a) / B2R m) <= bpow radix2 (emax - 4)).
  { unfold Rdiv. rewrite Rabs_mult, (Rabs_right (/ B2R m)) by (left; apply Rinv_0_lt_compat; lra).
    apply Rle_trans with (bpow radix2 (emax - 4) * 1); [|lra].
    apply Rmult_le_compat; auto using Rabs_pos; [left; apply Rinv_0_lt_compat; lra|].
    rewrite <- Rinv_1. apply Rinv_le; lra. }
  destruct (@rounds_bound _ _ Hp _ _ (emax - 4) (div_rounds Hp He (fsub o b a) m Fs ltac:(lra)) ltac:(lia) Ed1) as (Fd & Vd & Bd).
  destruct (@linspace_finite prec emax Hp He c a b n H8 Hn Hb Hpn Fa Fb Ba Bb) as (l' & E' & _ & FF).
  rewrite E in E'. inversion E'; subst l'; clear E'.
  exists l, (B2R (fdiv o (fsub o b a) m)). split; auto. split; auto. split; [rewrite Vd, Vs, Vm; reflexivity|].
  split; [eexists; reflexivity|].
  intros i Hi. destruct (H i Hi) as (fi & Ei & En).
  assert (Fi : fin (nth i l zero)).
  { rewrite Forall_forall in FF. apply FF, nth_In. lia. }
  split; auto. rewrite (nth_error_nth _ _ zero En) in *.
  destruct (@of_usize_spec _ _ Hp He _ _ Ei ltac:(lia)) as (Ffi & Vfi).
  set (p := fmul o fi (fdiv o (fsub o b a) m)) in *.
  assert (Fp : fin p).
  { clearbody p. clear - Fi Fa. destruct p as [|[]| |]; auto; destruct a as [[]| | |[]]; try discriminate Fa; discriminate Fi. }
  destruct (mul_rounds Hp He fi (fdiv o (fsub o b a) m) Ffi Fd) as [(_ & Vp)|[(Q & _)|(Q & _)]];
    [|fold p in Q; rewrite Q in Fp; discriminate Fp|fold p in Q; rewrite Q in Fp; discriminate Fp].
  destruct (add_rounds Hp He a p Fa Fp) as [(_ & Vy)|[(Q & _)|(Q & _)]];
    [|rewrite Q in Fi; discriminate Fi|rewrite Q in Fi; discriminate Fi].
  rewrite Vy. fold p in Vp. rewrite Vp, Vfi. reflexivity.
Qed.

Lemma ratio_le k m : 0 < m -> k <= m -> k / m <= 1.
Proof. intros Hm H. apply Rmult_le_reg_r with m; auto. unfold Rdiv. rewrite Rmult_assoc, Rinv_l by lra. lra. Qed.

Lemma between a b t : 0 <= t <= 1 -> Rabs (a + t * (b - a)) <= Rmax (Rabs a) (Rabs b).
Proof.
  intros Ht. replace (a + t * (b - a)) with ((1 - t) * a + t * b) by ring.
  eapply Rle_trans; [apply Rabs_triang|]. rewrite !Rabs_mult, (Rabs_right t), (Rabs_right (1 - t)) by lra.
  assert (X := Rmax_l (Rabs a) (Rabs b)). assert (Y := Rmax_r (Rabs a) (Rabs b)).
  assert (P1 := Rmult_le_compat_l (1 - t) _ _ ltac:(lra) X). assert (P2 := Rmult_le_compat_l t _ _ ltac:(lra) Y). lra.
Qed.

(** The roundings of one point. *)
Lemma point_error (a b : fl) (n i : nat) (f : fl) : u <= / 64 -> (2 <= n)%nat -> (i < n)%nat ->
  B2R f = rnd (rnd (B2R b - B2R a) / IZR (Z.of_nat n - 1)) ->
  Rabs (rnd (B2R a + rnd (IZR (Z.of_nat i) * B2R f)) - (B2R a + INR i * (B2R b - B2R a) / INR (n - 1)))
    <= 8 * u * Rmax (Rabs (B2R a)) (Rabs (B2R b)) + 2 * INR n * eta.
Proof.
  intros Hu Hn Hi Hf. rewrite <- INR_IZR_INZ.
  assert (Em : IZR (Z.of_nat n - 1) = INR (n - 1)) by (rewrite INR_IZR_INZ; f_equal; lia). rewrite Em in Hf.
  assert (Pm : 1 <= INR (n - 1)) by (change 1 with (INR 1); apply le_INR; lia).
  assert (Pi : 0 <= INR i <= INR (n - 1)) by (split; [apply pos_INR|apply le_INR; lia]).
  assert (Pn : INR (n - 1) <= INR n) by (apply le_INR; lia).
  assert (U0 : 0 < u) by apply (u_pos prec). assert (E0 : 0 < eta) by apply (eta_pos prec emax).
  set (B := Rmax (Rabs (B2R a)) (Rabs (B2R b))). set (m := INR (n - 1)) in *. set (k := INR i) in *.
  set (w := B2R b - B2R a) in *. set (d := rnd w) in *. set (x := B2R f) in *.
  assert (BW : Rabs w <= 2 * B).
  { unfold w, Rminus. eapply Rle_trans; [apply Rabs_triang|]. rewrite Rabs_Ropp.
    assert (X := Rmax_l (Rabs (B2R a)) (Rabs (B2R b))). assert (Y := Rmax_r (Rabs (B2R a)) (Rabs (B2R b))). unfold B. lra. }
  assert (PW := Rabs_pos w).
  assert (D1 : Rabs (d - w) <= u * Rabs w).
  { apply (rnd_rel prec emax Hp). apply on_grid_sub; apply on_grid_fl. }
  assert (D2 : Rabs (x - d / m) <= u * Rabs (d / m) + eta).
  { rewrite Hf. apply (rnd_abs prec emax Hp). }
  assert (D3 : Rabs (rnd (k * x) - k * x) <= u * Rabs (k * x)).
  { apply (rnd_rel prec emax Hp). unfold k. rewrite INR_IZR_INZ, Rmult_comm. apply on_grid_mulz, on_grid_fl. }
  assert (G3 : on_grid prec emax (B2R a + rnd (k * x))).
  { apply on_grid_add; [apply on_grid_fl|].
    assert (G := generic_format_round radix2 (SpecFloat.fexp prec emax) (round_mode mode_NE) (k * x)).
    unfold generic_format in G. fold (FLemmas.rnd prec emax) in G. unfold on_grid.
    change (round radix2 (SpecFloat.fexp prec emax) (round_mode mode_NE) (k * x)) with (rnd (k * x)) in G.
    rewrite G. unfold F2R. simpl Fnum. simpl Fexp. set (mm := Ztrunc _). set (e := cexp _ _ _).
    assert (L : (emin <= e)%Z). { unfold e, cexp, SpecFloat.fexp, SpecFloat.emin. lia. }
    exists (mm * 2 ^ (e - emin))%Z. rewrite mult_IZR, (IZR_Zpower radix2) by lia. rewrite Rmult_assoc, <- bpow_plus.
    do 2 f_equal. lia. }
  assert (D4 := rnd_rel prec emax Hp _ G3). change (bpow radix2 (- prec)) with u in D4.
  (* the slope *)
  assert (K1 : Rabs (k * x - k * w / m) <= (2 * u + u * u) * Rabs w + m * eta).
  { replace (k * x - k * w / m) with (k * ((x - d / m) + (d - w) / m)) by (field; lra).
    rewrite Rabs_mult, (Rabs_right k) by lra.
    assert (S1 : Rabs ((x - d / m) + (d - w) / m) <= (u * ((1 + u) * Rabs w / m) + eta) + u * Rabs w / m).
    { apply abs_add.
      - eapply Rle_trans; [exact D2|]. apply Rplus_le_compat_r, Rmult_le_compat_l; [lra|].
        unfold Rdiv. rewrite Rabs_mult, (Rabs_right (/ m)) by (left; apply Rinv_0_lt_compat; lra).
        apply Rmult_le_compat_r; [left; apply Rinv_0_lt_compat; lra|].
        replace d with (w + (d - w)) by ring. eapply Rle_trans; [apply Rabs_triang|]. lra.
      - unfold Rdiv. rewrite Rabs_mult, (Rabs_right (/ m)) by (left; apply Rinv_0_lt_compat; lra).
        apply Rmult_le_compat_r; [left; apply Rinv_0_lt_compat; lra|exact D1]. }
    apply Rle_trans with (m * ((u * ((1 + u) * Rabs w / m) + eta) + u * Rabs w / m)).
    - apply Rmult_le_compat; try lra. apply Rabs_pos.
    - right. field. lra. }
  set (e1 := (2 * u + u * u) * Rabs w + m * eta) in *.
  assert (KW : Rabs (k * w / m) <= Rabs w).
  { replace (k * w / m) with (k / m * w) by (field; lra). rewrite Rabs_mult, (Rabs_right (k / m)).
    - apply Rle_trans with (1 * Rabs w); [|lra]. apply Rmult_le_compat_r; auto. apply ratio_le; lra.
    - apply Rle_ge. apply Rmult_le_pos; [lra|left; apply Rinv_0_lt_compat; lra]. }
  assert (K2 : Rabs (k * x) <= Rabs w + e1).
  { replace (k * x) with (k * w / m + (k * x - k * w / m)) by ring. apply abs_add; auto. }
  assert (K3 : Rabs (rnd (k * x) - k * w / m) <= e1 + u * (Rabs w + e1)).
  { replace (rnd (k * x) - k * w / m) with ((k * x - k * w / m) + (rnd (k * x) - k * x)) by ring. apply abs_add; auto.
    eapply Rle_trans; [exact D3|]. apply Rmult_le_compat_l; lra. }
  set (e2 := e1 + u * (Rabs w + e1)) in *.
  assert (K4 : Rabs (B2R a + k * w / m) <= B).
  { replace (k * w / m) with (k / m * (B2R b - B2R a)) by (unfold w; field; lra). apply between. split.
    - apply Rmult_le_pos; [lra|left; apply Rinv_0_lt_compat; lra].
    - apply ratio_le; lra. }
  assert (K5 : Rabs (B2R a + rnd (k * x)) <= B + e2).
  { replace (B2R a + rnd (k * x)) with ((B2R a + k * w / m) + (rnd (k * x) - k * w / m)) by ring. apply abs_add; auto. }
  assert (K6 : Rabs (rnd (B2R a + rnd (k * x)) - (B2R a + k * w / m)) <= u * (B + e2) + e2).
  { replace (rnd (B2R a + rnd (k * x)) - (B2R a + k * w / m)) with
      ((rnd (B2R a + rnd (k * x)) - (B2R a + rnd (k * x))) + (rnd (k * x) - k * w / m)) by ring.
    apply abs_add; auto. eapply Rle_trans; [exact D4|]. apply Rmult_le_compat_l; lra. }
  eapply Rle_trans; [exact K6|].
  assert (PB : 0 <= B) by (eapply Rle_trans; [apply Rabs_pos|apply Rmax_l]).
  assert (Pme : 0 <= m * eta) by (apply Rmult_le_pos; lra).
  assert (PuB : 0 <= u * B) by (apply Rmult_le_pos; lra).
  assert (Q1 : e1 <= 4.1 * (u * B) + m * eta).
  { unfold e1. apply Rplus_le_compat_r. replace (2 * u + u * u) with (u * (2 + u)) by ring.
    apply Rle_trans with (u * (2 + u) * (2 * B)); [apply Rmult_le_compat_l; auto; apply Rmult_le_pos; lra|]. nra. }
  assert (P1 : 0 <= e1) by (eapply Rle_trans; [apply Rabs_pos|exact K1]).
  assert (Q2 : e2 <= 6.2 * (u * B) + 1.02 * (m * eta)).
  { unfold e2. assert (u * (Rabs w + e1) <= 2 * (u * B) + / 64 * e1).
    { rewrite Rmult_plus_distr_l. apply Rplus_le_compat; [|apply Rmult_le_compat_r; auto].
      apply Rle_trans with (u * (2 * B)); [apply Rmult_le_compat_l; lra|lra]. } lra. }
  assert (P2 : 0 <= e2) by (eapply Rle_trans; [apply Rabs_pos|exact K3]).
  assert (Q3 : u * (B + e2) <= u * B + / 64 * e2).
  { rewrite Rmult_plus_distr_l. apply Rplus_le_compat_l, Rmult_le_compat_r; auto. }
  assert (Q4 : m * eta <= INR n * eta) by (apply Rmult_le_compat_r; lra). lra.
Qed.

Theorem linspace_ieee c (a b : fl) n : u <= / 64 -> (8 <= emax)%Z -> (2 <= n)%nat -> (Z.of_nat n < two64)%Z -> (Z.of_nat n <= 2 ^ prec)%Z ->
  fin a -> fin b -> Rabs (B2R a) <= bpow radix2 (emax - 5) -> Rabs (B2R b) <= bpow radix2 (emax - 5) ->
  let e := linspace_error a b n in
  exists l, linspace o c a b n = Ok l /\ length l = n /\ Forall (fun v => fin v) l /\
    B2R (nth 0 l zero) = B2R a /\
    (forall i, (i < n)%nat -> Rabs (B2R (nth i l zero) - (B2R a + INR i * (B2R b - B2R a) / INR (n - 1))) <= e) /\
    (B2R a <= B2R b -> forall i j, (i <= j < n)%nat -> B2R (nth i l zero) <= B2R (nth j l zero)) /\
    (2 * e < (B2R b - B2R a) / INR (n - 1) -> increasing_grid o l).
Proof.
  intros Hu H8 Hn Hb Hpn Fa Fb Ba Bb e. unfold linspace_error in e.
  destruct (linspace_run c a b n H8 Hn Hb Hpn Fa Fb Ba Bb) as (l & dx & E & L & Edx & (f & Ef) & H).
  exists l. split; auto. split; auto.
  assert (FF : Forall (fun v => fin v) l).
  { apply Forall_forall. intros v Hv. apply (In_nth _ _ zero) in Hv as (i & Hi & <-). apply H. lia. }
  split; auto.
  assert (W : forall i, (i < n)%nat -> Rabs (B2R (nth i l zero) - (B2R a + INR i * (B2R b - B2R a) / INR (n - 1))) <= e).
  { intros i Hi. destruct (H i Hi) as (_ & ->). rewrite <- Ef. apply point_error; auto. congruence. }
  assert (Pm : 1 <= INR (n - 1)) by (change 1 with (INR 1); apply le_INR; lia).
  split; [|split; [exact W|split]].
  - destruct (H 0%nat ltac:(lia)) as (_ & ->). change (IZR (Z.of_nat 0)) with 0. rewrite Rmult_0_l, (@rnd_0 prec emax).
    rewrite Rplus_0_r. apply rnd_id.
  - intros Hab i j Hij. destruct (H i ltac:(lia)) as (_ & ->). destruct (H j ltac:(lia)) as (_ & ->).
    apply (@rnd_le prec emax Hp). apply Rplus_le_compat_l. apply (@rnd_le prec emax Hp).
    apply Rmult_le_compat_r; [|apply IZR_le; lia]. rewrite Edx. apply (@rnd_nonneg prec emax Hp).
    apply Rmult_le_pos; [apply (@rnd_nonneg prec emax Hp); lra|]. left. apply Rinv_0_lt_compat. apply IZR_lt. lia.
  - intros G i j x y Hij Hx Hy.
    assert (Li : (i < n)%nat) by (rewrite <- L; apply nth_error_Some; congruence).
    assert (Lj : (j < n)%nat) by (rewrite <- L; apply nth_error_Some; congruence).
    assert (Wi := W i Li). assert (Wj := W j Lj). destruct (H i Li) as (Fi & _). destruct (H j Lj) as (Fj & _).
    rewrite (nth_error_nth _ _ zero Hx) in *. rewrite (nth_error_nth _ _ zero Hy) in *.
    apply (ltb_fin Hp He); auto. apply Rabs_le_inv in Wi. apply Rabs_le_inv in Wj.
    assert (S : INR i + 1 <= INR j) by (rewrite <- S_INR; apply le_INR; lia).
    unfold Rdiv in *. set (q := (B2R b - B2R a) * / INR (n - 1)) in *.
    rewrite (Rmult_assoc (INR i)) in Wi. rewrite (Rmult_assoc (INR j)) in Wj. fold q in Wi, Wj.
    assert (E0 : 0 <= e) by (eapply Rle_trans; [apply Rabs_pos|exact (W i Li)]).
    assert (Q : (INR i + 1) * q <= INR j * q) by (apply Rmult_le_compat_r; lra). lra.
Qed.

(** Grids made by linspace are accepted by the constructors. *)
Lemma first_two_of_increasing (g : list fl) : (2 <= zlen g)%Z -> increasing_grid o g -> first_two_increase o g.
Proof.
  intros L I. unfold zlen in L. destruct g as [|x [|y l]]; cbn [length] in L; try lia. apply (I 0%nat 1%nat x y); auto.
Qed.

Lemma linspaced_increasing c g : u <= / 64 -> (8 <= emax)%Z -> linspaced Hp He c g -> (2 <= zlen g)%Z /\ increasing_grid o g.
Proof.
  intros Hu H8 (a & b & n & Hn & Hb & Hpn & Fa & Fb & Ba & Bb & Hs & E).
  destruct (linspace_ieee c a b n Hu H8 Hn Hb Hpn Fa Fb Ba Bb) as (l & E' & L & _ & _ & _ & _ & I).
  rewrite E in E'. inversion E'; subst l. split; [unfold zlen; lia|]. apply I, Hs.
Qed.

Theorem linspaced_accepted c (grids : list (list fl)) vals : u <= / 64 -> (8 <= emax)%Z ->
  prefix_products_fit (map zlen grids) -> zlen vals = zprod (map zlen grids) -> Forall (linspaced Hp He c) grids ->
  Forall (increasing_grid o) grids /\
  mlc_new o c grids vals = Ok (mkRect grids (map zlen grids) vals) /\
  (Forall (fun g => (4 <= zlen g)%Z) grids ->
   forall lin, mcc_new o c grids vals lin = Ok (mkCC (mkRect grids (map zlen grids) vals) lin)).
Proof.
  intros Hu H8 P Hv Hg.
  assert (K : Forall (fun g => (2 <= zlen g)%Z /\ increasing_grid o g) grids).
  { eapply Forall_impl; [|exact Hg]. intros g. apply linspaced_increasing; auto. }
  assert (I : Forall (increasing_grid o) grids) by (eapply Forall_impl; [|exact K]; intros g (_ & ?); auto).
  assert (T : Forall (fun g => (2 <= zlen g)%Z) grids) by (eapply Forall_impl; [|exact K]; intros g (? & _); auto).
  assert (S : Forall (first_two_increase o) grids).
  { eapply Forall_impl; [|exact K]. intros g (? & ?). apply first_two_of_increasing; auto. }
  split; auto. split.
  - assert (C := @new_checks_mlc _ o c vals grids P). cbn [checks_in_order] in C. apply C; auto.
  - intros F4 lin. assert (C := @new_checks_mcc _ o c vals grids lin P). cbn [checks_in_order] in C. apply C; auto.
Qed.
End B.
