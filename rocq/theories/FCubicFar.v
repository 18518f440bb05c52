(** Rounding errors of the cubic interpolators outside the grid: one interpolation step at a
    position that may be many cell widths away. *)
From Coq Require Import Reals Lra Lia List Bool ZifyBool ZifyNat PeanoNat.
From Flocq Require Import Core.Core IEEE754.BinarySingleNaN.
From Verif Require Import Base Ops FInst ModelCore ModelLinear ModelCubic Spec SpecOrder SpecIEEE SpecError.
From Verif Require Import CoreLemmas TensorLemmas MethodLemmas MethodChar GenLemmas FLemmas UtilProofs FProofs FProofs2 FError FNearest.
From Verif Require Import RInst SpecReal RTensor R1D RChar Interpolators REval FCubic.
Import ListNotations.
Unset Implicit Arguments.
Open Scope list_scope.
Open Scope R_scope.

Section B.
Variables prec emax : Z.
Context (Hp : Prec_gt_0 prec) (He : Prec_lt_emax prec emax).
Notation fl := (binary_float prec emax).
Notation o := (BOps Hp He).
Notation emin := (3 - emax - prec)%Z.
Notation fin x := (is_finite x = true).
Notation rnd := (rnd prec emax).
Notation u := (bpow radix2 (- prec)).
Notation eta := (/ 2 * bpow radix2 emin).
Notation near := (near prec emax).

(** Units in which [near] works. *)
Definition unit_ok (B E W : R) : Prop :=
  u <= 2 * E /\ 2000 * E <= 1 /\ 0 <= B /\ B <= bpow radix2 (emax - 8) /\ eta <= W <= / 2000.

Section Far.
Variables E T : R.
Hypothesis T1 : 1 <= T.

Lemma unit_up B W : unit_ok (T * B) E (T * W) -> 0 <= B -> eta <= W -> unit_ok B E W.
Proof using T1.
  intros (H1 & H2 & H3 & H4 & H5) B0 W0. assert (N := eta_pos prec emax).
  assert (1 * B <= T * B) by (apply Rmult_le_compat_r; lra). assert (1 * W <= T * W) by (apply Rmult_le_compat_r; lra).
  repeat split; lra.
Qed.
Lemma near_up B W x v m e : 0 <= E -> 0 <= B -> 0 <= W -> 0 <= m -> 0 <= e -> near B E W x v m e -> near (T * B) E (T * W) x v m e.
Proof using T1.
  intros E0 B0 W0 M0 e0 (F & V & D). split; [exact F|].
  assert (1 * B <= T * B) by (apply Rmult_le_compat_r; lra). assert (1 * W <= T * W) by (apply Rmult_le_compat_r; lra).
  split.
  - eapply Rle_trans; [exact V|]. apply Rmult_le_compat_l; lra.
  - eapply Rle_trans; [exact D|]. apply Rmult_le_compat_l; auto.
    assert (E * B <= E * (T * B)) by (apply Rmult_le_compat_l; lra). lra.
Qed.

(** A position of size at most [T], known up to [tau] units times [T]. *)
Definition far (th : fl) (t tau : R) : Prop := fin th /\ Rabs t <= T /\ Rabs (B2R th - t) <= tau * (E * T) /\ 0 <= tau <= 20.

Lemma far_prod B W th t tau (y : fl) w n f : unit_ok (T * B) E (T * W) -> 0 <= B -> eta <= W ->
  far th t tau -> near B E W y w n f -> 0 <= n -> 0 <= f ->
  Rabs (B2R th * B2R y - t * w) <= (26 / 25 * f + tau * n) * (E * (T * B) + T * W).
Proof using T1.
  intros U B0 W0 (Ft & Rt & Dt & T0) (Fy & Hw & Dy) Hn Hf. destruct U as (H1 & H2 & H3 & H4 & H5).
  assert (N := eta_pos prec emax). assert (P := u_pos prec).
  assert (Bt : Rabs (B2R th) <= 26 / 25 * T).
  { replace (B2R th) with (t + (B2R th - t)) by ring. eapply Rle_trans; [apply abs_add; [exact Rt|exact Dt]|].
    assert (E * T <= / 2000 * T) by (apply Rmult_le_compat_r; lra).
    assert (0 <= E * T) by (apply Rmult_le_pos; lra).
    assert (tau * (E * T) <= 20 * (E * T)) by (apply Rmult_le_compat_r; lra). lra. }
  replace (B2R th * B2R y - t * w) with (B2R th * (B2R y - w) + (B2R th - t) * w) by ring.
  replace ((26 / 25 * f + tau * n) * (E * (T * B) + T * W)) with
    (26 / 25 * T * (f * (E * B + W)) + (tau * (E * T) * (n * B) + tau * n * (T * W))) by ring.
  apply abs_add; [apply abs_mul; auto|].
  eapply Rle_trans; [apply abs_mul; [exact Dt|exact Hw]|].
  assert (0 <= tau * n * (T * W)) by (apply Rmult_le_pos; [apply Rmult_le_pos; lra|lra]). lra.
Qed.

Lemma far_mul2 B W th t tau y w n f p q : unit_ok (T * B) E (T * W) -> 0 <= B -> eta <= W ->
  far th t tau -> near B E W y w n f -> Rabs (t * w) <= p * (T * B) -> 0 <= n -> 0 <= f ->
  0 <= p <= 64 -> 26 / 25 * f + tau * n <= 2000 -> (26 / 25 * f + tau * n) * (101 / 100) + 2 * p + 1 <= q ->
  near (T * B) E (T * W) (fmul o th y) (t * w) p q /\ near (T * B) E (T * W) (fmul o y th) (w * t) p q.
Proof using T1.
  intros U B0 W0 Ht Hy Hv Hn Hf Hpp Hef Hq. assert (U' := U). destruct U' as (H1 & H2 & H3 & H4 & H5).
  assert (0 <= 26 / 25 * f + tau * n).
  { destruct Ht as (_ & _ & _ & T0). assert (0 <= tau * n) by (apply Rmult_le_pos; lra). lra. }
  destruct (near_round prec emax Hp He (T * B) E (T * W) H1 H2 H3 H4 H5 (B2R th * B2R y) (t * w) p (26 / 25 * f + tau * n) Hv) as (L & R); auto.
  { apply far_prod; auto. }
  assert (S0 : 0 <= E * (T * B) + T * W).
  { destruct (E_facts prec emax Hp He (T * B) E (T * W)) as (_ & _ & S0 & _); auto. lra. }
  split.
  - destruct (mul_ok prec emax Hp He th y (proj1 Ht) (proj1 Hy) L) as (F & V). split; [exact F|]. split; [exact Hv|]. rewrite V.
    eapply Rle_trans; [exact R|]. apply Rmult_le_compat_r; lra.
  - rewrite Rmult_comm in L. destruct (mul_ok prec emax Hp He y th (proj1 Hy) (proj1 Ht) L) as (F & V).
    split; [exact F|]. rewrite (Rmult_comm w). split; [exact Hv|]. rewrite V, (Rmult_comm (B2R y)).
    eapply Rle_trans; [exact R|]. apply Rmult_le_compat_r; lra.
Qed.

Lemma far_mul B W th t tau y w n f p q : unit_ok (T * B) E (T * W) -> 0 <= B -> eta <= W ->
  far th t tau -> near B E W y w n f -> Rabs (t * w) <= p * (T * B) -> 0 <= n -> 0 <= f ->
  0 <= p <= 64 -> 26 / 25 * f + tau * n <= 2000 -> (26 / 25 * f + tau * n) * (101 / 100) + 2 * p + 1 <= q ->
  near (T * B) E (T * W) (fmul o th y) (t * w) p q.
Proof using T1. intros. refine (proj1 (far_mul2 B W th t tau y w n f p q _ _ _ _ _ _ _ _ _ _ _)); auto. Qed.

Lemma far_mul_r B W th t tau y w n f p q : unit_ok (T * B) E (T * W) -> 0 <= B -> eta <= W ->
  far th t tau -> near B E W y w n f -> Rabs (t * w) <= p * (T * B) -> 0 <= n -> 0 <= f ->
  0 <= p <= 64 -> 26 / 25 * f + tau * n <= 2000 -> (26 / 25 * f + tau * n) * (101 / 100) + 2 * p + 1 <= q ->
  near (T * B) E (T * W) (fmul o y th) (w * t) p q.
Proof using T1. intros. refine (proj2 (far_mul2 B W th t tau y w n f p q _ _ _ _ _ _ _ _ _ _ _)); auto. Qed.

Lemma far_fma B W th t tau y w n f z v m e p q : unit_ok (T * B) E (T * W) -> 0 <= B -> eta <= W ->
  far th t tau -> near B E W y w n f -> near (T * B) E (T * W) z v m e -> Rabs (w * t + v) <= p * (T * B) -> 0 <= n -> 0 <= f -> 0 <= e ->
  0 <= p <= 64 -> 26 / 25 * f + tau * n + e <= 2000 -> (26 / 25 * f + tau * n + e) * (101 / 100) + 2 * p + 1 <= q ->
  near (T * B) E (T * W) (fmuladd o y th z) (w * t + v) p q.
Proof using T1.
  intros U B0 W0 Ht Hy (Fz & _ & Dz) Hv Hn Hf Hee Hpp Hef Hq. assert (U' := U). destruct U' as (H1 & H2 & H3 & H4 & H5).
  assert (0 <= 26 / 25 * f + tau * n).
  { destruct Ht as (_ & _ & _ & T0). assert (0 <= tau * n) by (apply Rmult_le_pos; lra). lra. }
  destruct (near_round prec emax Hp He (T * B) E (T * W) H1 H2 H3 H4 H5 (B2R y * B2R th + B2R z) (w * t + v) p (26 / 25 * f + tau * n + e) Hv) as (L & R); [|lra|lra|].
  { replace (B2R y * B2R th + B2R z - (w * t + v)) with ((B2R th * B2R y - t * w) + (B2R z - v)) by ring.
    rewrite Rmult_plus_distr_r. apply abs_add; auto. apply far_prod; auto. }
  assert (S0 : 0 <= E * (T * B) + T * W).
  { destruct (E_facts prec emax Hp He (T * B) E (T * W)) as (_ & _ & S0 & _); auto. lra. }
  destruct (fma_ok prec emax Hp He y th z (proj1 Hy) (proj1 Ht) Fz L) as (F & V). split; [exact F|]. split; [exact Hv|]. rewrite V.
  eapply Rle_trans; [exact R|]. apply Rmult_le_compat_r; lra.
Qed.

Lemma far_sub_one th t tau : u <= 2 * E -> 2000 * E <= 1 -> T <= bpow radix2 (emax - 8) ->
  fin th -> Rabs (B2R th - t) <= tau * (E * T) -> 0 <= tau <= 17 -> Rabs (t - 1) <= T ->
  far (fsub o th (fone o)) (t - 1) (tau + 23 / 10).
Proof using T1.
  intros HuE HE TX Ft Dt T0 Rt. assert (U := u_pos prec). assert (Hu : u <= / 64) by lra. assert (P := prec_6 _ _ Hp He Hu).
  assert (F1 : fin (fone o)) by (cbn [fone BOps]; apply is_finite_Bone).
  assert (V1 : B2R (fone o) = 1) by (cbn [fone BOps]; apply Bone_correct).
  assert (ET : E * T <= / 2000 * T) by (apply Rmult_le_compat_r; lra).
  assert (ET0 : 0 <= E * T) by (apply Rmult_le_pos; lra).
  assert (A : Rabs (B2R th - 1) <= 21 / 20 * T).
  { replace (B2R th - 1) with ((t - 1) + (B2R th - t)) by ring. eapply Rle_trans; [apply abs_add; [exact Rt|exact Dt]|].
    assert (tau * (E * T) <= 17 * (E * T)) by (apply Rmult_le_compat_r; lra). lra. }
  assert (X1 : bpow radix2 (emax - 1) = 128 * bpow radix2 (emax - 8)).
  { replace (emax - 1)%Z with (7 + (emax - 8))%Z by lia. rewrite bpow_plus. reflexivity. }
  destruct (sub_ok prec emax Hp He th (fone o) Ft F1) as (F & V); [rewrite V1; apply (rnd_lt prec emax Hp He); lra|].
  rewrite V1 in V. split; [exact F|]. split; [exact Rt|]. split; [|lra]. rewrite V.
  assert (G : on_grid prec emax (B2R th - 1)).
  { rewrite <- V1. apply on_grid_sub; apply on_grid_fl. }
  assert (Q := rnd_rel prec emax Hp (B2R th - 1) G).
  replace (rnd (B2R th - 1) - (t - 1)) with ((rnd (B2R th - 1) - (B2R th - 1)) + (B2R th - t)) by ring.
  eapply Rle_trans; [apply abs_add; [exact Q|exact Dt]|].
  assert (u * Rabs (B2R th - 1) <= u * (21 / 20 * T)) by (apply Rmult_le_compat_l; lra).
  assert (u * T <= 2 * E * T) by (apply Rmult_le_compat_r; lra). lra.
Qed.
Lemma far_neg th t tau : far th t tau -> far (fneg o th) (- t) tau.
Proof using.
  intros (F & R & D & T0). split; [cbn [fneg BOps]; rewrite is_finite_Bopp; auto|]. rewrite Rabs_Ropp. split; [auto|].
  cbn [fneg BOps]. rewrite B2R_Bopp. replace (- B2R th - - t) with (- (B2R th - t)) by ring. rewrite Rabs_Ropp. auto.
Qed.

Variables B W : R.
Hypothesis B0 : 0 <= B.
Hypothesis W0 : eta <= W.

Lemma absT t x p q D : Rabs t <= T -> Rabs x <= p * D -> p <= q -> 0 <= D -> Rabs (t * x) <= q * (T * D).
Proof using.
  clear. intros Ht Hx Hpq HD. eapply Rle_trans; [apply abs_mul; [exact Ht|exact Hx]|].
  assert (0 <= T) by (eapply Rle_trans; [apply Rabs_pos|exact Ht]).
  replace (T * (p * D)) with (p * (T * D)) by ring. apply Rmult_le_compat_r; auto. apply Rmult_le_pos; auto.
Qed.
Lemma abs_up x p D : 0 <= p -> 0 <= D -> Rabs x <= p * D -> Rabs x <= p * (T * D).
Proof using T1.
  intros P0 D0 H. eapply Rle_trans; [exact H|]. apply Rmult_le_compat_l; auto.
  assert (1 * D <= T * D) by (apply Rmult_le_compat_r; lra). lra.
Qed.

Lemma hermite_far c th t tau y0 v0 dy d k0 m0 k1 m1 : unit_ok (T * (T * (T * B))) E (T * (T * (T * W))) ->
  far th t tau -> tau <= 16 ->
  near B E W y0 v0 1 0 -> near B E W dy d 2 6 -> near B E W k0 m0 2 11 -> near B E W k1 m1 6 46 ->
  Rabs (m0 - d) <= 4 * B -> Rabs (d - m1) <= 4 * B -> Rabs (3 * d - 2 * m0 - m1) <= 8 * B -> Rabs (m0 + m1 - 2 * d) <= 6 * B ->
  near (T * (T * (T * B))) E (T * (T * (T * W))) (hermite o c th y0 dy k0 k1)
    (v0 + t * (m0 + t * ((3 * d - 2 * m0 - m1) + t * (m0 + m1 - 2 * d)))) 18 1200.
Proof using T1 B0 W0.
  intros U3 Ht Htau Hy Hd H0 H1 Ba Bb Bc Bd.
  assert (N := eta_pos prec emax).
  assert (BT : forall D, 0 <= D -> 0 <= T * D) by (intros; apply Rmult_le_pos; lra).
  assert (WT : forall D, eta <= D -> eta <= T * D).
  { intros D HD. assert (1 * D <= T * D) by (apply Rmult_le_compat_r; lra). lra. }
  assert (Ba0 := BT B B0). assert (Bb0 := BT _ Ba0). assert (Wa := WT W W0). assert (Wb := WT _ Wa).
  assert (U2 := unit_up _ _ U3 Bb0 Wb). assert (U1 := unit_up _ _ U2 Ba0 Wa). assert (U0 := unit_up _ _ U1 B0 W0).
  assert (E0 : 0 <= E) by (destruct U0 as (Q & _); assert (P := u_pos prec); lra).
  unfold hermite.
  assert (T0 := proj2 (proj2 (proj2 Ht))). assert (Rt := proj1 (proj2 Ht)).
  destruct U0 as (S1 & S2 & S3 & S4 & S5).
  assert (Sub : forall x y v w m n e f p q, near B E W x v m e -> near B E W y w n f -> Rabs (v - w) <= p * B ->
    0 <= p <= 64 -> 0 <= e + f <= 2000 -> (e + f) * (101 / 100) + 2 * p + 1 <= q -> near B E W (fsub o x y) (v - w) p q)
    by exact (near_sub prec emax Hp He B E W S1 S2 S3 S4 S5).
  assert (Add : forall x y v w m n e f p q, near B E W x v m e -> near B E W y w n f -> Rabs (v + w) <= p * B ->
    0 <= p <= 64 -> 0 <= e + f <= 2000 -> (e + f) * (101 / 100) + 2 * p + 1 <= q -> near B E W (fadd o x y) (v + w) p q)
    by exact (near_add prec emax Hp He B E W S1 S2 S3 S4 S5).
  assert (Na : near B E W (fsub o k0 dy) (m0 - d) 4 27) by (eapply Sub; eauto; lra).
  assert (Nb : near B E W (fadd o (fneg o k1) dy) (- m1 + d) 4 62).
  { eapply Add; [apply near_neg; exact H1|exact Hd| |lra..]. replace (- m1 + d) with (d - m1) by ring. auto. }
  assert (N1 : near B E W (fadd o dy (fsub o k0 dy)) m0 2 39).
  { apply near_eq with (v := d + (m0 - d)); [|ring]. eapply Add; [exact Hd|exact Na| |lra..].
    replace (d + (m0 - d)) with m0 by ring. apply H0. }
  assert (N2a : near B E W (fadd o (fsub o k0 dy) (fsub o k0 dy)) ((m0 - d) + (m0 - d)) 8 72).
  { eapply Add; [exact Na|exact Na| |lra..]. replace (8 * B) with (4 * B + 4 * B) by ring. apply abs_add; auto. }
  assert (N2 : near B E W (fsub o (fadd o (fneg o k1) dy) (fadd o (fsub o k0 dy) (fsub o k0 dy))) (3 * d - 2 * m0 - m1) 8 153).
  { apply near_eq with (v := (- m1 + d) - ((m0 - d) + (m0 - d))); [|ring]. eapply Sub; [exact Nb|exact N2a| |lra..].
    replace (- m1 + d - (m0 - d + (m0 - d))) with (3 * d - 2 * m0 - m1) by ring. auto. }
  assert (N3 : near B E W (fsub o (fsub o k0 dy) (fadd o (fneg o k1) dy)) (m0 + m1 - 2 * d) 6 103).
  { apply near_eq with (v := (m0 - d) - (- m1 + d)); [|ring]. eapply Sub; [exact Na|exact Nb| |lra..].
    replace (m0 - d - (- m1 + d)) with (m0 + m1 - 2 * d) by ring. auto. }
  clear Sub Add.
  set (c3 := m0 + m1 - 2 * d) in *. set (c2 := 3 * d - 2 * m0 - m1) in *.
  assert (Q3 : Rabs (t * c3) <= 6 * (T * B)) by (eapply absT; [exact Rt|exact Bd|lra|exact B0]).
  assert (Q2 : Rabs (c2 + t * c3) <= 14 * (T * B)).
  { replace (14 * (T * B)) with (8 * (T * B) + 6 * (T * B)) by ring. apply abs_add; auto. apply abs_up; auto; lra. }
  assert (Q2' : Rabs (t * (c2 + t * c3)) <= 14 * (T * (T * B))) by (eapply absT; [exact Rt|exact Q2|lra|auto]).
  assert (Q1 : Rabs (m0 + t * (c2 + t * c3)) <= 16 * (T * (T * B))).
  { replace (16 * (T * (T * B))) with (2 * (T * (T * B)) + 14 * (T * (T * B))) by ring. apply abs_add; auto.
    apply abs_up; auto; try lra. apply abs_up; auto; try lra. apply H0. }
  assert (Q1' : Rabs (t * (m0 + t * (c2 + t * c3))) <= 16 * (T * (T * (T * B)))) by (eapply absT; [exact Rt|exact Q1|lra|auto]).
  assert (Q0 : Rabs (v0 + t * (m0 + t * (c2 + t * c3))) <= 18 * (T * (T * (T * B)))).
  { apply Rle_trans with (1 * (T * (T * (T * B))) + 16 * (T * (T * (T * B)))).
    - apply abs_add; auto. do 3 (apply abs_up; auto; try lra). apply Hy.
    - assert (0 <= T * (T * (T * B))) by auto. lra. }
  assert (W00 : 0 <= W) by lra. assert (Wa0 : 0 <= T * W) by lra. assert (Wb0 : 0 <= T * (T * W)) by lra.
  assert (N2' : near (T * B) E (T * W) (fsub o (fadd o (fneg o k1) dy) (fadd o (fsub o k0 dy) (fsub o k0 dy))) c2 8 153).
  { apply near_up; auto; lra. }
  assert (N1' : near (T * (T * B)) E (T * (T * W)) (fadd o dy (fsub o k0 dy)) m0 2 39).
  { do 2 (apply near_up; auto; try lra). }
  assert (Hy' : near (T * (T * (T * B))) E (T * (T * (T * W))) y0 v0 1 0).
  { do 3 (apply near_up; auto; try lra). }
  destruct (use_fma c).
  - assert (G3 : near (T * B) E (T * W) (fmuladd o (fsub o (fsub o k0 dy) (fadd o (fneg o k1) dy)) th (fsub o (fadd o (fneg o k1) dy) (fadd o (fsub o k0 dy) (fsub o k0 dy)))) (c3 * t + c2) 14 390).
    { eapply far_fma; [exact U1|exact B0|exact W0|exact Ht|exact N3|exact N2'| |lra..]. replace (c3 * t + c2) with (c2 + t * c3) by ring. auto. }
    match type of G3 with near _ _ _ ?X _ _ _ => assert (G2 : near (T * (T * B)) E (T * (T * W)) (fmuladd o X th (fadd o dy (fsub o k0 dy))) ((c3 * t + c2) * t + m0) 16 714) end.
    { eapply far_fma; [exact U2|exact Ba0|exact Wa|exact Ht|exact G3|exact N1'| |lra..]. replace ((c3 * t + c2) * t + m0) with (m0 + t * (c2 + t * c3)) by ring. auto. }
    apply near_eq with (v := ((c3 * t + c2) * t + m0) * t + v0); [|ring].
    eapply far_fma; [exact U3|exact Bb0|exact Wb|exact Ht|exact G2|exact Hy'| |lra..].
    replace (((c3 * t + c2) * t + m0) * t + v0) with (v0 + t * (m0 + t * (c2 + t * c3))) by ring. auto.
  - assert (G3 : near (T * B) E (T * W) (fmul o th (fsub o (fsub o k0 dy) (fadd o (fneg o k1) dy))) (t * c3) 6 220).
    { eapply far_mul; [exact U1|exact B0|exact W0|exact Ht|exact N3|exact Q3|lra..]. }
    destruct U1 as (X1 & X2 & X3 & X4 & X5).
    assert (G2 := near_add prec emax Hp He (T * B) E (T * W) X1 X2 X3 X4 X5 _ _ _ _ _ _ _ _ 14 407 N2' G3 Q2 ltac:(lra) ltac:(lra) ltac:(lra)).
    match type of G2 with near _ _ _ ?X _ _ _ => assert (G2' : near (T * (T * B)) E (T * (T * W)) (fmul o th X) (t * (c2 + t * c3)) 14 690) end.
    { eapply far_mul; [exact U2|exact Ba0|exact Wa|exact Ht|exact G2|exact Q2'|lra..]. }
    clear X1 X2 X3 X4 X5. destruct U2 as (X1 & X2 & X3 & X4 & X5).
    assert (G1 := near_add prec emax Hp He (T * (T * B)) E (T * (T * W)) X1 X2 X3 X4 X5 _ _ _ _ _ _ _ _ 16 772 N1' G2' Q1 ltac:(lra) ltac:(lra) ltac:(lra)).
    match type of G1 with near _ _ _ ?X _ _ _ => assert (G1' : near (T * (T * (T * B))) E (T * (T * (T * W))) (fmul o th X) (t * (m0 + t * (c2 + t * c3))) 16 1120) end.
    { eapply far_mul; [exact U3|exact Bb0|exact Wb|exact Ht|exact G1|exact Q1'|lra..]. }
    clear X1 X2 X3 X4 X5. destruct U3 as (X1 & X2 & X3 & X4 & X5).
    apply (near_add prec emax Hp He (T * (T * (T * B))) E (T * (T * (T * W))) X1 X2 X3 X4 X5 _ _ _ _ _ _ _ _ 18 1200 Hy' G1' Q0); lra.
Qed.

Lemma linear_far fma th t tau y v k m : unit_ok (T * B) E (T * W) -> T <= bpow radix2 (emax - 8) ->
  fin th -> Rabs (B2R th - t) <= tau * (E * T) -> 0 <= tau <= 17 -> Rabs (t - 1) <= T ->
  near B E W y v 1 0 -> near B E W k m 6 46 -> near (T * B) E (T * W) (linear_ext o fma y k th) (v + m * (t - 1)) 18 1200.
Proof using T1 B0 W0.
  intros U1 TX Ft Dt T0 Rt Hy Hk. assert (U1' := U1). destruct U1' as (S1 & S2 & S3 & S4 & S5).
  assert (N := eta_pos prec emax). assert (E0 : 0 <= E) by (assert (P := u_pos prec); lra).
  assert (Q := far_sub_one th t tau S1 S2 TX Ft Dt T0 Rt).
  assert (Hy' : near (T * B) E (T * W) y v 1 0) by (apply near_up; auto; lra).
  assert (Qv : Rabs ((t - 1) * m) <= 6 * (T * B)) by (eapply absT; [exact Rt|apply Hk|lra|exact B0]).
  assert (Qs : Rabs (v + m * (t - 1)) <= 7 * (T * B)).
  { replace (7 * (T * B)) with (1 * (T * B) + 6 * (T * B)) by ring. apply abs_add; [apply Hy'|]. rewrite Rmult_comm. exact Qv. }
  assert (TT : tau + 23 / 10 <= 193 / 10) by lra.
  unfold linear_ext. destruct fma.
  - apply near_eq with (v := m * (t - 1) + v); [|ring].
    apply (near_weaken prec emax Hp He (T * B) E (T * W) S1 S2 S3 S4 S5) with (m := 7) (e := 200); try lra.
    eapply far_fma; [exact U1|exact B0|exact W0|exact Q|exact Hk|exact Hy'| |lra..]. rewrite Rplus_comm. exact Qs.
  - apply (near_weaken prec emax Hp He (T * B) E (T * W) S1 S2 S3 S4 S5) with (m := 7) (e := 200); try lra.
    assert (Hm : near (T * B) E (T * W) (fmul o k (fsub o th (fone o))) (m * (t - 1)) 6 180).
    { eapply far_mul_r; [exact U1|exact B0|exact W0|exact Q|exact Hk|exact Qv|lra..]. }
    apply (near_add prec emax Hp He (T * B) E (T * W) S1 S2 S3 S4 S5 _ _ _ _ _ _ _ _ 7 200 Hy' Hm Qs); lra.
Qed.
End Far.
End B.
