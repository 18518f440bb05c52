(** Rounding errors of the cubic interpolators: one interpolation step. *)
From Coq Require Import Reals Lra Lia List Bool ZifyBool ZifyNat PeanoNat.
From Flocq Require Import Core.Core IEEE754.BinarySingleNaN.
From Verif Require Import Base Ops FInst ModelCore ModelLinear ModelCubic Spec SpecOrder SpecIEEE SpecError.
From Verif Require Import CoreLemmas TensorLemmas MethodLemmas MethodChar GenLemmas FLemmas UtilProofs FProofs FProofs2 FError FNearest.
From Verif Require Import RInst SpecReal RTensor R1D RChar Interpolators REval.
Import ListNotations.
Unset Implicit Arguments.
Open Scope list_scope.
Open Scope R_scope.

Section B.
Variables prec emax : Z.
Context (Hp : Prec_gt_0 prec) (He : Prec_lt_emax prec emax).
Notation fl := (binary_float prec emax).
Notation o := (BOps Hp He).
Notation emin := (3 - emax - prec)%Z.
Notation fin x := (is_finite x = true).
Notation rnd := (rnd prec emax).
Notation u := (bpow radix2 (- prec)).
Notation eta := (/ 2 * bpow radix2 emin).

Section Near.
Variables B E W : R.
Hypothesis HuE : u <= 2 * E.
Hypothesis HE : 2000 * E <= 1.
Hypothesis B0 : 0 <= B.
Hypothesis HB : B <= bpow radix2 (emax - 8).
Hypothesis HW : eta <= W <= / 2000.
Notation S := (E * B + W).

Lemma E_facts : 0 < E /\ u <= / 64 /\ 0 < S /\ S <= B / 2000 + / 2000.
Proof using HuE HE B0 HB HW Hp He.
  assert (U := u_pos prec). assert (N := eta_pos prec emax). assert (Hu : u <= / 64) by lra.
  assert (0 <= E * B) by (apply Rmult_le_pos; lra). assert (E * B <= / 2000 * B) by (apply Rmult_le_compat_r; lra).
  repeat split; lra.
Qed.

(** [x] is a float near [v]: [v] is at most [m] units of size, the error at most [e] units. *)
Definition near (x : fl) (v m e : R) : Prop := fin x /\ Rabs v <= m * B /\ Rabs (B2R x - v) <= e * S.

Lemma near_round z v p e : Rabs v <= p * B -> Rabs (z - v) <= e * S -> 0 <= p <= 64 -> 0 <= e <= 2000 ->
  Rabs (rnd z) < bpow radix2 emax /\ Rabs (rnd z - v) <= (e * (101 / 100) + 2 * p + 1) * S.
Proof using HuE HE B0 HB HW Hp He.
  intros Hv Hz Hpp Hee. destruct E_facts as (E0 & Hu & S0 & S1). assert (U := u_pos prec). assert (N := eta_pos prec emax).
  assert (ES : 0 <= e * S) by (apply Rmult_le_pos; lra).
  assert (Sz : Rabs z <= p * B + e * S).
  { replace z with (v + (z - v)) by ring. apply abs_add; auto. }
  assert (X : bpow radix2 (emax - 1) = 128 * bpow radix2 (emax - 8)).
  { replace (emax - 1)%Z with (7 + (emax - 8))%Z by lia. rewrite bpow_plus. reflexivity. }
  assert (P6 := prec_6 prec emax Hp He Hu).
  assert (X1 : 4 <= bpow radix2 (emax - 1)).
  { change 4 with (bpow radix2 2). apply bpow_le. unfold Prec_lt_emax in He. lia. }
  split.
  - apply (rnd_lt prec emax Hp He). eapply Rle_trans; [exact Sz|].
    assert (p * B <= 64 * B) by (apply Rmult_le_compat_r; lra).
    assert (e * S <= 2000 * S) by (apply Rmult_le_compat_r; lra). lra.
  - replace (rnd z - v) with ((rnd z - z) + (z - v)) by ring.
    eapply Rle_trans; [apply abs_add; [apply (rnd_abs prec emax Hp)|exact Hz]|].
    assert (T1 : u * Rabs z <= u * (p * B + e * S)) by (apply Rmult_le_compat_l; lra).
    assert (T2 : u * (p * B) <= 2 * p * (E * B)).
    { replace (2 * p * (E * B)) with ((2 * E) * (p * B)) by ring. apply Rmult_le_compat_r; [apply Rmult_le_pos; lra|lra]. }
    assert (T3 : u * (e * S) <= / 100 * (e * S)) by (apply Rmult_le_compat_r; lra).
    assert (T4 : 0 <= p * W) by (apply Rmult_le_pos; lra).
    assert (T5 : 0 <= E * B) by (apply Rmult_le_pos; lra).
    replace (u * (p * B + e * S)) with (u * (p * B) + u * (e * S)) in T1 by ring.
    replace ((e * (101 / 100) + 2 * p + 1) * S) with (e * S + / 100 * (e * S) + 2 * p * (E * B) + 2 * (p * W) + (E * B) + W) by field.
    lra.
Qed.

Lemma near_weaken x v m e m' e' : near x v m e -> m <= m' -> e <= e' -> near x v m' e'.
Proof using HuE HE B0 HB HW Hp He.
  intros (F & V & D) Hm Hee. destruct E_facts as (_ & _ & S0 & _). split; [auto|]. split.
  - eapply Rle_trans; [exact V|]. apply Rmult_le_compat_r; auto.
  - eapply Rle_trans; [exact D|]. apply Rmult_le_compat_r; lra.
Qed.
Lemma near_eq x v w m e : near x v m e -> v = w -> near x w m e.
Proof using. intros H <-. exact H. Qed.

Lemma near_add x y v w m n e f p q : near x v m e -> near y w n f -> Rabs (v + w) <= p * B ->
  0 <= p <= 64 -> 0 <= e + f <= 2000 -> (e + f) * (101 / 100) + 2 * p + 1 <= q -> near (fadd o x y) (v + w) p q.
Proof using HuE HE B0 HB HW Hp He.
  intros (Fx & _ & Dx) (Fy & _ & Dy) Hv Hpp Hef Hq.
  destruct (near_round (B2R x + B2R y) (v + w) p (e + f) Hv) as (L & R); auto.
  { replace (B2R x + B2R y - (v + w)) with ((B2R x - v) + (B2R y - w)) by ring.
    replace ((e + f) * S) with (e * S + f * S) by ring. apply abs_add; auto. }
  destruct (add_ok prec emax Hp He x y Fx Fy L) as (F & V). split; [exact F|]. split; [exact Hv|]. rewrite V.
  eapply Rle_trans; [exact R|]. destruct E_facts as (_ & _ & S0 & _). apply Rmult_le_compat_r; lra.
Qed.
Lemma near_sub x y v w m n e f p q : near x v m e -> near y w n f -> Rabs (v - w) <= p * B ->
  0 <= p <= 64 -> 0 <= e + f <= 2000 -> (e + f) * (101 / 100) + 2 * p + 1 <= q -> near (fsub o x y) (v - w) p q.
Proof using HuE HE B0 HB HW Hp He.
  intros (Fx & _ & Dx) (Fy & _ & Dy) Hv Hpp Hef Hq.
  destruct (near_round (B2R x - B2R y) (v - w) p (e + f) Hv) as (L & R); auto.
  { replace (B2R x - B2R y - (v - w)) with ((B2R x - v) + - (B2R y - w)) by ring.
    replace ((e + f) * S) with (e * S + f * S) by ring. apply abs_add; auto. rewrite Rabs_Ropp. auto. }
  destruct (sub_ok prec emax Hp He x y Fx Fy L) as (F & V). split; [exact F|]. split; [exact Hv|]. rewrite V.
  eapply Rle_trans; [exact R|]. destruct E_facts as (_ & _ & S0 & _). apply Rmult_le_compat_r; lra.
Qed.
Lemma near_neg x v m e : near x v m e -> near (fneg o x) (- v) m e.
Proof using.
  intros (F & V & D). split; [cbn [fneg BOps]; rewrite is_finite_Bopp; auto|]. rewrite Rabs_Ropp. split; [auto|].
  cbn [fneg BOps]. rewrite B2R_Bopp. replace (- B2R x - - v) with (- (B2R x - v)) by ring. rewrite Rabs_Ropp. auto.
Qed.

(** Multiplication by a position [t] known up to [tau] units. *)
Definition pos (th : fl) (t tau : R) : Prop := fin th /\ Rabs t <= 103 / 100 /\ Rabs (B2R th - t) <= tau * E /\ 0 <= tau <= 20.
Lemma pos_prod th t tau (y : fl) w n f : pos th t tau -> Rabs w <= n * B -> Rabs (B2R y - w) <= f * S -> 0 <= n -> 0 <= f ->
  Rabs (B2R th * B2R y - t * w) <= (26 / 25 * f + tau * n) * S.
Proof using HuE HE B0 HB HW Hp He.
  intros (Ft & Rt & Dt & T0) Hw Dy Hn Hf. destruct E_facts as (E0 & Hu & S0 & S1). assert (N := eta_pos prec emax).
  assert (Bt : Rabs (B2R th) <= 26 / 25).
  { replace (B2R th) with (t + (B2R th - t)) by ring. eapply Rle_trans; [apply abs_add; [exact Rt|exact Dt]|].
    assert (tau * E <= 20 * E) by (apply Rmult_le_compat_r; lra). lra. }
  replace (B2R th * B2R y - t * w) with (B2R th * (B2R y - w) + (B2R th - t) * w) by ring.
  replace ((26 / 25 * f + tau * n) * S) with (26 / 25 * (f * S) + (tau * E * (n * B) + tau * n * W)) by ring.
  apply abs_add; [apply abs_mul; auto|].
  eapply Rle_trans; [apply abs_mul; [exact Dt|exact Hw]|].
  assert (0 <= tau * n * W) by (apply Rmult_le_pos; [apply Rmult_le_pos; lra|lra]). lra.
Qed.
Lemma near_mul th t tau y w n f p q : pos th t tau -> near y w n f -> Rabs (t * w) <= p * B -> 0 <= n -> 0 <= f ->
  0 <= p <= 64 -> 26 / 25 * f + tau * n <= 2000 -> (26 / 25 * f + tau * n) * (101 / 100) + 2 * p + 1 <= q ->
  near (fmul o th y) (t * w) p q.
Proof using HuE HE B0 HB HW Hp He.
  intros Ht (Fy & Hw & Dy) Hv Hn Hf Hpp Hef Hq.
  destruct (near_round (B2R th * B2R y) (t * w) p (26 / 25 * f + tau * n) Hv) as (L & R); auto.
  { apply pos_prod; auto. }
  { split; auto. destruct Ht as (_ & _ & _ & T0). assert (0 <= tau * n) by (apply Rmult_le_pos; lra). lra. }
  destruct (mul_ok prec emax Hp He th y (proj1 Ht) Fy L) as (F & V). split; [exact F|]. split; [exact Hv|]. rewrite V.
  eapply Rle_trans; [exact R|]. destruct E_facts as (_ & _ & S0 & _). apply Rmult_le_compat_r; lra.
Qed.
Lemma near_fma th t tau y w n f z v m e p q : pos th t tau -> near y w n f -> near z v m e -> Rabs (w * t + v) <= p * B -> 0 <= n -> 0 <= f -> 0 <= e ->
  0 <= p <= 64 -> 26 / 25 * f + tau * n + e <= 2000 -> (26 / 25 * f + tau * n + e) * (101 / 100) + 2 * p + 1 <= q ->
  near (fmuladd o y th z) (w * t + v) p q.
Proof using HuE HE B0 HB HW Hp He.
  intros Ht (Fy & Hw & Dy) (Fz & _ & Dz) Hv Hn Hf Hee Hpp Hef Hq.
  destruct (near_round (B2R y * B2R th + B2R z) (w * t + v) p (26 / 25 * f + tau * n + e) Hv) as (L & R); auto.
  { replace (B2R y * B2R th + B2R z - (w * t + v)) with ((B2R th * B2R y - t * w) + (B2R z - v)) by ring.
    replace ((26 / 25 * f + tau * n + e) * S) with ((26 / 25 * f + tau * n) * S + e * S) by ring.
    apply abs_add; auto. apply pos_prod; auto. }
  { split; auto. destruct Ht as (_ & _ & _ & T0). assert (0 <= tau * n) by (apply Rmult_le_pos; lra). lra. }
  destruct (fma_ok prec emax Hp He y th z Fy (proj1 Ht) Fz L) as (F & V). split; [exact F|]. split; [exact Hv|]. rewrite V.
  eapply Rle_trans; [exact R|]. destruct E_facts as (_ & _ & S0 & _). apply Rmult_le_compat_r; lra.
Qed.

(** Two is exact. *)
Lemma two_val : fin (fadd o (fone o) (fone o)) /\ B2R (fadd o (fone o) (fone o)) = 2.
Proof using HuE HE B0 HB HW Hp He.
  destruct E_facts as (_ & Hu & _). assert (P := prec_6 _ _ Hp He Hu).
  assert (F1 : fin (fone o)) by (cbn [fone BOps]; apply is_finite_Bone).
  assert (V1 : B2R (fone o) = 1) by (cbn [fone BOps]; apply Bone_correct).
  destruct (@rounds_bound _ _ Hp _ _ 1%Z (add_rounds Hp He (fone o) (fone o) F1 F1)) as (F2 & V2 & _).
  { unfold Prec_lt_emax, Prec_gt_0 in *. lia. } { rewrite V1. simpl. rewrite Rabs_right; lra. }
  split; auto. rewrite V2, V1. replace (1 + 1) with (bpow radix2 1) by (simpl; lra).
  replace 2 with (bpow radix2 1) by reflexivity. apply (round_generic radix2 _ _ (bpow radix2 1)). apply generic_format_bpow.
  unfold FLT_exp. unfold Prec_lt_emax, Prec_gt_0 in *. lia.
Qed.
Lemma near_half x v m e p q : near x v m e -> 0 <= e <= 2000 -> Rabs (v / 2) <= p * B -> 0 <= p <= 64 ->
  e / 2 * (101 / 100) + 2 * p + 1 <= q -> near (fdiv o x (fadd o (fone o) (fone o))) (v / 2) p q.
Proof using HuE HE B0 HB HW Hp He.
  intros (Fx & _ & Dx) Hee Hv Hpp Hq. destruct two_val as (F2 & V2).
  destruct (near_round (B2R x / B2R (fadd o (fone o) (fone o))) (v / 2) p (e / 2) Hv) as (L & R); auto; try lra.
  { rewrite V2. replace (B2R x / 2 - v / 2) with (/ 2 * (B2R x - v)) by field.
    replace (e / 2 * S) with (/ 2 * (e * S)) by field. apply abs_mul; [rewrite Rabs_right; lra|auto]. }
  destruct (div_ok prec emax Hp He x (fadd o (fone o) (fone o)) Fx ltac:(lra) L) as (F & V). split; [exact F|]. split; [exact Hv|]. rewrite V.
  eapply Rle_trans; [exact R|]. destruct E_facts as (_ & _ & S0 & _). apply Rmult_le_compat_r; lra.
Qed.
Lemma near_natural fma x v m e y w n f p q : near x v m e -> near y w n f -> 0 <= m -> 2 * m <= 64 -> 0 <= e -> 0 <= f ->
  Rabs (2 * v - w) <= p * B -> 0 <= p <= 64 -> 3 * e + 4 * m + 1 + f <= 1900 ->
  ((2 * e) * (101 / 100) + 4 * m + 1 + f) * (101 / 100) + 2 * p + 1 <= q ->
  near (natural_k1 o fma x y) (2 * v - w) p q.
Proof using HuE HE B0 HB HW Hp He.
  intros Hx Hy Hm Hm2 Hee Hf Hv Hpp Hef Hq. assert (Hx' := Hx). destruct Hx as (Fx & Vx & Dx). destruct two_val as (F2 & V2).
  destruct E_facts as (_ & _ & S0 & _).
  assert (D2 : Rabs (2 * B2R x - 2 * v) <= 2 * e * S).
  { replace (2 * B2R x - 2 * v) with (2 * (B2R x - v)) by ring. rewrite Rmult_assoc. apply abs_mul; [rewrite Rabs_right; lra|auto]. }
  assert (V2v : Rabs (2 * v) <= 2 * m * B) by (rewrite Rmult_assoc; apply abs_mul; [rewrite Rabs_right; lra|auto]).
  unfold natural_k1. destruct fma.
  - assert (Hn := near_neg _ _ _ _ Hy). destruct Hn as (Fn & _ & Dn).
    destruct (near_round (B2R (fadd o (fone o) (fone o)) * B2R x + B2R (fneg o y)) (2 * v - w) p (2 * e + f) Hv) as (L & R); auto; try lra.
    { rewrite V2. replace (2 * B2R x + B2R (fneg o y) - (2 * v - w)) with ((2 * B2R x - 2 * v) + (B2R (fneg o y) - - w)) by ring.
      replace ((2 * e + f) * S) with (2 * e * S + f * S) by ring. apply abs_add; auto. }
    destruct (fma_ok prec emax Hp He _ x (fneg o y) F2 Fx Fn L) as (F & V). split; [exact F|]. split; [exact Hv|]. rewrite V.
    eapply Rle_trans; [exact R|]. apply Rmult_le_compat_r; lra.
  - destruct (near_round (B2R (fadd o (fone o) (fone o)) * B2R x) (2 * v) (2 * m) (2 * e) V2v) as (L & R); auto; try lra.
    { rewrite V2. auto. }
    destruct (mul_ok prec emax Hp He _ x F2 Fx L) as (F & V).
    apply near_sub with (m := 2 * m) (e := 2 * e * (101 / 100) + 2 * (2 * m) + 1) (n := n) (f := f); auto; try lra.
    split; [exact F|]. split; [exact V2v|]. rewrite V. exact R.
Qed.

(** The Hermite polynomial. *)
Lemma abs_combo3 B' x y z a b c : Rabs x <= a * B' -> Rabs y <= b * B' -> Rabs z <= c * B' -> Rabs (x + y + z) <= (a + b + c) * B'.
Proof using. intros. replace ((a + b + c) * B') with (a * B' + b * B' + c * B') by ring. repeat apply abs_add; auto. Qed.

Lemma hermite_near c th t tau y0 v0 dy d k0 m0 k1 m1 : pos th t tau -> tau <= 16 ->
  near y0 v0 1 0 -> near dy d 2 6 -> near k0 m0 2 11 -> near k1 m1 6 46 ->
  Rabs (m0 - d) <= 4 * B -> Rabs (d - m1) <= 4 * B -> Rabs (3 * d - 2 * m0 - m1) <= 8 * B -> Rabs (m0 + m1 - 2 * d) <= 6 * B ->
  near (hermite o c th y0 dy k0 k1) (v0 + t * (m0 + t * ((3 * d - 2 * m0 - m1) + t * (m0 + m1 - 2 * d)))) 20 1200.
Proof using HuE HE B0 HB HW Hp He.
  intros Ht Htau Hy Hd H0 H1 Ba Bb Bc Bd. unfold hermite.
  assert (T0 := proj2 (proj2 (proj2 Ht))). assert (Rt := proj1 (proj2 Ht)).
  assert (Na : near (fsub o k0 dy) (m0 - d) 4 27) by (eapply near_sub; eauto; lra).
  assert (Nb : near (fadd o (fneg o k1) dy) (- m1 + d) 4 62).
  { eapply near_add; [apply near_neg; exact H1|exact Hd| |lra..]. replace (- m1 + d) with (d - m1) by ring. auto. }
  assert (N1 : near (fadd o dy (fsub o k0 dy)) m0 2 39).
  { apply near_eq with (v := d + (m0 - d)); [|ring]. eapply near_add; [exact Hd|exact Na| |lra..].
    replace (d + (m0 - d)) with m0 by ring. apply H0. }
  assert (N2a : near (fadd o (fsub o k0 dy) (fsub o k0 dy)) ((m0 - d) + (m0 - d)) 8 72).
  { eapply near_add; [exact Na|exact Na| |lra..]. replace (8 * B) with (4 * B + 4 * B) by ring. apply abs_add; auto. }
  assert (N2 : near (fsub o (fadd o (fneg o k1) dy) (fadd o (fsub o k0 dy) (fsub o k0 dy))) (3 * d - 2 * m0 - m1) 8 153).
  { apply near_eq with (v := (- m1 + d) - ((m0 - d) + (m0 - d))); [|ring]. eapply near_sub; [exact Nb|exact N2a| |lra..].
    replace (- m1 + d - (m0 - d + (m0 - d))) with (3 * d - 2 * m0 - m1) by ring. auto. }
  assert (N3 : near (fsub o (fsub o k0 dy) (fadd o (fneg o k1) dy)) (m0 + m1 - 2 * d) 6 103).
  { apply near_eq with (v := (m0 - d) - (- m1 + d)); [|ring]. eapply near_sub; [exact Na|exact Nb| |lra..].
    replace (m0 - d - (- m1 + d)) with (m0 + m1 - 2 * d) by ring. auto. }
  set (c3 := m0 + m1 - 2 * d) in *. set (c2 := 3 * d - 2 * m0 - m1) in *.
  assert (Q3 : Rabs (t * c3) <= 31 / 5 * B).
  { eapply Rle_trans; [apply abs_mul; [exact Rt|exact Bd]|]. nra. }
  assert (Q2 : Rabs (c2 + t * c3) <= 71 / 5 * B).
  { replace (71 / 5 * B) with (8 * B + 31 / 5 * B) by field. apply abs_add; auto. }
  assert (Q2' : Rabs (t * (c2 + t * c3)) <= 74 / 5 * B).
  { eapply Rle_trans; [apply abs_mul; [exact Rt|exact Q2]|]. nra. }
  assert (Q1 : Rabs (m0 + t * (c2 + t * c3)) <= 84 / 5 * B).
  { replace (84 / 5 * B) with (2 * B + 74 / 5 * B) by field. apply abs_add; auto. apply H0. }
  assert (Q1' : Rabs (t * (m0 + t * (c2 + t * c3))) <= 88 / 5 * B).
  { eapply Rle_trans; [apply abs_mul; [exact Rt|exact Q1]|]. nra. }
  assert (Q0 : Rabs (v0 + t * (m0 + t * (c2 + t * c3))) <= 20 * B).
  { eapply Rle_trans; [apply abs_add; [apply Hy|exact Q1']|]. lra. }
  destruct (use_fma c).
  - assert (G3 : near (fmuladd o (fsub o (fsub o k0 dy) (fadd o (fneg o k1) dy)) th (fsub o (fadd o (fneg o k1) dy) (fadd o (fsub o k0 dy) (fsub o k0 dy)))) (c3 * t + c2) (71 / 5) 390).
    { eapply near_fma; [exact Ht|exact N3|exact N2| |lra..]. replace (c3 * t + c2) with (c2 + t * c3) by ring. auto. }
    assert (G2 : near (fmuladd o (fmuladd o (fsub o (fsub o k0 dy) (fadd o (fneg o k1) dy)) th (fsub o (fadd o (fneg o k1) dy) (fadd o (fsub o k0 dy) (fsub o k0 dy)))) th (fadd o dy (fsub o k0 dy))) ((c3 * t + c2) * t + m0) (84 / 5) 714).
    { eapply near_fma; [exact Ht|exact G3|exact N1| |lra..]. replace ((c3 * t + c2) * t + m0) with (m0 + t * (c2 + t * c3)) by ring. auto. }
    apply near_eq with (v := ((c3 * t + c2) * t + m0) * t + v0); [|ring].
    eapply near_fma; [exact Ht|exact G2|exact Hy| |lra..].
    replace (((c3 * t + c2) * t + m0) * t + v0) with (v0 + t * (m0 + t * (c2 + t * c3))) by ring. auto.
  - assert (G3 : near (fmul o th (fsub o (fsub o k0 dy) (fadd o (fneg o k1) dy))) (t * c3) (31 / 5) 220).
    { eapply near_mul; [exact Ht|exact N3|exact Q3|lra..]. }
    assert (G2 := near_add _ _ _ _ _ _ _ _ (71 / 5) 407 N2 G3 Q2 ltac:(lra) ltac:(lra) ltac:(lra)).
    assert (G2' : near (fmul o th (fadd o (fsub o (fadd o (fneg o k1) dy) (fadd o (fsub o k0 dy) (fsub o k0 dy))) (fmul o th (fsub o (fsub o k0 dy) (fadd o (fneg o k1) dy))))) (t * (c2 + t * c3)) (74 / 5) 690).
    { eapply near_mul; [exact Ht|exact G2|exact Q2'|lra..]. }
    assert (G1 := near_add _ _ _ _ _ _ _ _ (84 / 5) 772 N1 G2' Q1 ltac:(lra) ltac:(lra) ltac:(lra)).
    match type of G1 with near ?X _ _ _ => assert (G1' : near (fmul o th X) (t * (m0 + t * (c2 + t * c3))) (88 / 5) 1120) end.
    { eapply near_mul; [exact Ht|exact G1|exact Q1'|lra..]. }
    apply (near_add _ _ _ _ _ _ _ _ 20 1200 Hy G1' Q0); lra.
Qed.

(** The linear continuation. *)
Lemma pos_sub_one th t tau : fin th -> Rabs (B2R th - t) <= tau * E -> 0 <= tau <= 17 -> Rabs (t - 1) <= 103 / 100 ->
  pos (fsub o th (fone o)) (t - 1) (tau + 23 / 10).
Proof using HuE HE B0 HB HW Hp He.
  intros Ft Dt T0 Rt. destruct E_facts as (E0 & Hu & _). assert (P := prec_6 _ _ Hp He Hu). assert (U := u_pos prec).
  assert (F1 : fin (fone o)) by (cbn [fone BOps]; apply is_finite_Bone).
  assert (V1 : B2R (fone o) = 1) by (cbn [fone BOps]; apply Bone_correct).
  assert (A : Rabs (B2R th - 1) <= 21 / 20).
  { replace (B2R th - 1) with ((t - 1) + (B2R th - t)) by ring. eapply Rle_trans; [apply abs_add; [exact Rt|exact Dt]|].
    assert (tau * E <= 17 * E) by (apply Rmult_le_compat_r; lra). lra. }
  assert (X1 : 4 <= bpow radix2 (emax - 1)).
  { change 4 with (bpow radix2 2). apply bpow_le. unfold Prec_lt_emax in He. lia. }
  destruct (sub_ok prec emax Hp He th (fone o) Ft F1) as (F & V); [rewrite V1; apply (rnd_lt prec emax Hp He); lra|].
  rewrite V1 in V. split; [exact F|]. split; [exact Rt|]. split; [|lra]. rewrite V.
  assert (Q := rnd_rel prec emax Hp (B2R th - 1)).
  assert (G : on_grid prec emax (B2R th - 1)).
  { rewrite <- V1. apply on_grid_sub; apply on_grid_fl. }
  specialize (Q G).
  replace (rnd (B2R th - 1) - (t - 1)) with ((rnd (B2R th - 1) - (B2R th - 1)) + (B2R th - t)) by ring.
  eapply Rle_trans; [apply abs_add; [exact Q|exact Dt]|].
  assert (u * Rabs (B2R th - 1) <= u * (21 / 20)) by (apply Rmult_le_compat_l; lra). lra.
Qed.

Lemma linear_near fma th t tau y v k m : fin th -> Rabs (B2R th - t) <= tau * E -> 0 <= tau <= 17 -> Rabs (t - 1) <= 103 / 100 ->
  near y v 1 0 -> near k m 6 46 -> near (linear_ext o fma y k th) (v + m * (t - 1)) 20 1200.
Proof using HuE HE B0 HB HW Hp He.
  intros Ft Dt T0 Rt Hy Hk. assert (Q := pos_sub_one th t tau Ft Dt T0 Rt).
  assert (Qv : Rabs ((t - 1) * m) <= 31 / 5 * B).
  { eapply Rle_trans; [apply abs_mul; [exact Rt|apply Hk]|]. nra. }
  assert (Qs : Rabs (v + m * (t - 1)) <= 36 / 5 * B).
  { replace (36 / 5 * B) with (1 * B + 31 / 5 * B) by field. apply abs_add; [apply Hy|]. rewrite Rmult_comm. exact Qv. }
  assert (TT : tau + 23 / 10 <= 193 / 10) by lra.
  unfold linear_ext. destruct fma.
  - apply near_eq with (v := m * (t - 1) + v); [|ring].
    apply near_weaken with (m := 36 / 5) (e := 200); try lra.
    eapply near_fma; [exact Q|exact Hk|exact Hy| |lra..]. rewrite Rplus_comm. exact Qs.
  - apply near_weaken with (m := 36 / 5) (e := 200); try lra.
    assert (Hm : near (fmul o k (fsub o th (fone o))) (m * (t - 1)) (31 / 5) 180).
    { destruct Hk as (Fk & Vk & Dk).
      destruct (near_round (B2R k * B2R (fsub o th (fone o))) (m * (t - 1)) (31 / 5) (26 / 25 * 46 + (tau + 23 / 10) * 6)) as (L & R); try lra.
      { rewrite Rmult_comm. exact Qv. }
      { replace (B2R k * B2R (fsub o th (fone o)) - m * (t - 1)) with (B2R (fsub o th (fone o)) * B2R k - (t - 1) * m) by ring.
        apply pos_prod; auto; lra. }
      destruct (mul_ok prec emax Hp He k (fsub o th (fone o)) Fk (proj1 Q) L) as (F & V).
      split; [exact F|]. split; [rewrite Rmult_comm; exact Qv|]. rewrite V. eapply Rle_trans; [exact R|].
      destruct E_facts as (_ & _ & S0 & _). apply Rmult_le_compat_r; lra. }
    eapply near_add; [exact Hy|exact Hm|exact Qs|lra..].
Qed.

(** One axis of a regular grid. *)
Definition sat_pos (sat : saturation) (t : R) : Prop :=
  match sat with
  | SatNone => Rabs t <= 103 / 100
  | InsideLow => Rabs t <= 103 / 100
  | OutsideLow => Rabs t <= 103 / 100 /\ Rabs (- t - 1) <= 103 / 100
  | InsideHigh => Rabs (t - 1) <= 103 / 100
  | OutsideHigh => Rabs (t - 1) <= 103 / 100 /\ Rabs (t - 1 - 1) <= 103 / 100
  end.

Lemma near_val v : fin v -> Rabs (B2R v) <= B -> near v (B2R v) 1 0.
Proof using. intros F H. split; [auto|]. split; [lra|]. rewrite Rminus_diag_eq by reflexivity. rewrite Rabs_R0. lra. Qed.

Lemma pos_neg th t tau : fin th -> Rabs (B2R th - t) <= tau * E -> 0 <= tau <= 17 -> Rabs t <= 103 / 100 ->
  pos (fneg o th) (- t) tau.
Proof using.
  intros F D T R. split; [cbn [fneg BOps]; rewrite is_finite_Bopp; auto|]. rewrite Rabs_Ropp. split; [auto|].
  cbn [fneg BOps]. rewrite B2R_Bopp. replace (- B2R th - - t) with (- (B2R th - t)) by ring. rewrite Rabs_Ropp. split; [auto|lra].
Qed.

Ltac box := repeat match goal with H : Rabs _ <= B |- _ => apply Rabs_le_inv in H end; apply Rabs_le; lra.

Lemma diff_near x y : fin x -> fin y -> Rabs (B2R x) <= B -> Rabs (B2R y) <= B -> near (fsub o x y) (B2R x - B2R y) 2 6.
Proof using HuE HE B0 HB HW Hp He.
  intros Fx Fy Hx Hy. eapply near_sub; [apply near_val; auto|apply near_val; auto| |lra..]. box.
Qed.

Lemma reg_near c fo lin sat th t v0 v1 v2 v3 : fin th -> Rabs (B2R th - t) <= 12 * E -> sat_pos sat t ->
  fin v0 -> fin v1 -> fin v2 -> fin v3 -> Rabs (B2R v0) <= B -> Rabs (B2R v1) <= B -> Rabs (B2R v2) <= B -> Rabs (B2R v3) <= B ->
  near (reg_innerp o c fo lin sat th [v0; v1; v2; v3])
       (reg_innerp ROps c fo lin sat t [B2R v0; B2R v1; B2R v2; B2R v3]) 20 1200.
Proof using HuE HE B0 HB HW Hp He.
  intros Ft Dt St F0 F1 F2 F3 H0 H1 H2 H3.
  assert (Half : forall x y, fin x -> fin y -> Rabs (B2R x) <= B -> Rabs (B2R y) <= B ->
     near (fdiv o (fsub o x y) (fadd o (fone o) (fone o))) ((B2R x - B2R y) / 2) 1 7).
  { intros x y Fx Fy Hx Hy. eapply near_half; [apply diff_near; auto|lra| |lra..]. box. }
  assert (NHalf : forall x y, fin x -> fin y -> Rabs (B2R x) <= B -> Rabs (B2R y) <= B ->
     near (fdiv o (fneg o (fsub o x y)) (fadd o (fone o) (fone o))) ((- (B2R x - B2R y)) / 2) 1 7).
  { intros x y Fx Fy Hx Hy. eapply near_half; [apply near_neg, diff_near; auto|lra| |lra..]. box. }
  assert (Nat_ : forall fma dy d k m, near dy d 2 6 -> near k m 1 7 -> near (natural_k1 o fma dy k) (2 * d - m) 6 46).
  { intros fma dy d k m Hd Hk. apply near_weaken with (m := 5) (e := 42); try lra.
    eapply near_natural; [exact Hd|exact Hk|lra..| |lra|lra|lra].
    destruct Hd as (_ & Hd & _), Hk as (_ & Hk & _). apply Rabs_le_inv in Hd, Hk. apply Rabs_le. lra. }
  assert (W2 : forall x v, near x v 1 7 -> near x v 2 11) by (intros; eapply near_weaken; eauto; lra).
  assert (W6 : forall x v, near x v 1 7 -> near x v 6 46) by (intros; eapply near_weaken; eauto; lra).
  assert (Pt : Rabs t <= 103 / 100 -> pos th t 12) by (intros; split; [auto|split; [auto|split; [auto|lra]]]).
  destruct sat; cbn [sat_pos] in St; unfold reg_innerp; cbn [reg_inner].
  - eapply near_eq.
    + eapply hermite_near with (tau := 12); [apply Pt; exact St|lra|apply near_val; auto|apply diff_near; auto|apply W2, Half; auto|apply W6, Half; auto| | | |]; box.
    + unfold hermite. cbn. destruct (use_fma c); field.
  - eapply near_eq.
    + eapply hermite_near with (tau := 12); [exact (pos_neg th t 12 Ft Dt ltac:(lra) St)|lra|apply near_val; auto|apply diff_near; auto|apply W2, NHalf; auto|apply Nat_; [apply diff_near; auto|apply NHalf; auto]| | | |]; box.
    + unfold hermite, natural_k1. cbn. destruct (use_fma c); field.
  - destruct St as (S1 & S2). assert (Pn := pos_neg th t 12 Ft Dt ltac:(lra) S1). destruct lin.
    + eapply near_eq.
      * eapply linear_near with (tau := 12); [apply Pn|apply Pn|lra|exact S2|apply near_val; auto|apply Nat_; [apply diff_near; auto|apply NHalf; auto]].
      * unfold linear_ext, natural_k1. cbn. destruct (use_fma c), fo; field.
    + eapply near_eq.
      * eapply hermite_near with (tau := 12); [exact Pn|lra|apply near_val; auto|apply diff_near; auto|apply W2, NHalf; auto|apply Nat_; [apply diff_near; auto|apply NHalf; auto]| | | |]; box.
      * unfold hermite, natural_k1. cbn. destruct (use_fma c), fo; field.
  - assert (Ps := pos_sub_one th t 12 Ft Dt ltac:(lra) St). eapply near_eq.
    + eapply hermite_near; [exact Ps|lra|apply near_val; auto|apply diff_near; auto|apply W2, Half; auto|apply Nat_; [apply diff_near; auto|apply Half; auto]| | | |]; box.
    + unfold hermite, natural_k1. cbn. destruct (use_fma c); field.
  - destruct St as (S1 & S2). assert (Ps := pos_sub_one th t 12 Ft Dt ltac:(lra) S1). destruct lin.
    + eapply near_eq.
      * eapply linear_near; [apply Ps|apply Ps|lra|exact S2|apply near_val; auto|apply Nat_; [apply diff_near; auto|apply Half; auto]].
      * unfold linear_ext, natural_k1. cbn. destruct (use_fma c); field.
    + eapply near_eq.
      * eapply hermite_near; [exact Ps|lra|apply near_val; auto|apply diff_near; auto|apply W2, Half; auto|apply Nat_; [apply diff_near; auto|apply Half; auto]| | | |]; box.
      * unfold hermite, natural_k1. cbn. destruct (use_fma c); field.
Qed.
End Near.

(** ** Any number of axes *)
Section Tens.
Variables (dims os : list Z) (Vh : list Z -> fl) (Ls : list ((Z -> R) -> R)) (nd : nat -> list fl -> fl).
Variables (G gamma W A Bmax : R).
Notation N := (length dims).
Notation V := (fun idx => B2R (Vh idx)).
Notation g := (G + gamma).
Hypothesis HLs : lfs dims Ls.
Hypothesis HV : forall idx, fin (Vh idx) /\ Rabs (V idx) <= A.
Hypothesis G1 : 1 <= G.
Hypothesis Hgamma : 0 <= gamma.
Hypothesis HW : 0 <= W.
Hypothesis HG : forall k f M, (k < N)%nat -> (forall i, Rabs (f i) <= M) -> Rabs (nth k Ls (fun _ => 0) f) <= G * M.
Hypothesis Hnd : forall k vs B, (k < N)%nat -> 0 <= B <= Bmax -> (forall i, fin (vs i) /\ Rabs (B2R (vs i)) <= B) ->
  let z := nth k os 0%Z in let r := nd k [vs z; vs (z + 1)%Z; vs (z + 2)%Z; vs (z + 3)%Z] in
  fin r /\ Rabs (B2R r - nth k Ls (fun _ => 0) (fun i => B2R (vs i))) <= gamma * B + W.
Hypothesis HB : g ^ N * (A + INR N * W) <= Bmax.

Lemma tens4_error k suf : (k <= N)%nat ->
  let r := tens 4 Vh nd os k suf in let e := tenL (firstn k Ls) (fun idx => V (idx ++ suf)) in
  fin r /\ Rabs (B2R r - e) <= INR k * g ^ (Nat.pred k) * (gamma * A + W) /\ Rabs e <= G ^ k * A /\ Rabs (B2R r) <= g ^ k * (A + INR k * W).
Proof using All.
  assert (A0 : 0 <= A) by (destruct (HV []) as (_ & H); eapply Rle_trans; [apply Rabs_pos|exact H]).
  assert (LL : length Ls = N) by (symmetry; apply (Forall2_len _ _ _ _ _ HLs)).
  revert suf. induction k as [|k IH]; intros suf Hk; cbv zeta.
  { cbn [tens firstn tenL app]. destruct (HV suf) as (F & S). split; [exact F|]. rewrite Rminus_diag_eq by reflexivity. rewrite Rabs_R0.
    simpl. repeat split; lra. }
  assert (HLk : lfs (firstn k dims) (firstn k Ls)) by (apply Forall2_firstn; exact HLs).
  assert (HL : lf (nth k dims 0%Z) (nth k Ls (fun _ => 0))) by (apply (Forall2_nth_lt _ _ _ _ _ k 0%Z (fun _ => 0) HLs); lia).
  assert (E : firstn (S k) Ls = firstn k Ls ++ [nth k Ls (fun _ => 0)]).
  { clear - Hk LL. rewrite <- LL in Hk. clear LL. revert k Hk. induction Ls as [|L Ls' IH]; intros k Hk; simpl in *; [lia|].
    destruct k; auto. simpl. f_equal. apply IH. lia. }
  rewrite E, (tenL_snoc _ HLk HL). cbn [tens seq map].
  set (z := nth k os 0%Z).
  change (Z.of_nat 0) with 0%Z. change (Z.of_nat 1) with 1%Z. change (Z.of_nat 2) with 2%Z. change (Z.of_nat 3) with 3%Z. rewrite Z.add_0_r.
  set (ex := fun i => tenL (firstn k Ls) (fun idx => B2R (Vh ((idx ++ [i]) ++ suf)))).
  change (nth k Ls (fun _ => 0) (fun i => tenL (firstn k Ls) (fun idx => B2R (Vh ((idx ++ [i]) ++ suf))))) with (nth k Ls (fun _ => 0) ex).
  assert (Eg : forall i, ex i = tenL (firstn k Ls) (fun idx => V (idx ++ i :: suf))).
  { intros i. unfold ex. apply (tenL_ext _ _ HLk). intros idx _. rewrite <- app_assoc. reflexivity. }
  set (vs := fun i => tens 4 Vh nd os k (i :: suf)).
  set (K := INR k * g ^ (Nat.pred k) * (gamma * A + W)) in *.
  assert (IV : forall i, fin (vs i) /\ Rabs (B2R (vs i) - ex i) <= K /\ Rabs (ex i) <= G ^ k * A /\ Rabs (B2R (vs i)) <= g ^ k * (A + INR k * W)).
  { intros i. rewrite Eg. apply (IH (i :: suf)). lia. }
  clearbody ex. clear IH.
  set (B1 := G ^ k * A + K). set (B2 := g ^ k * (A + INR k * W)) in *.
  assert (GK : 0 < G ^ k) by (apply pow_lt; lra). assert (gK : 0 < g ^ k) by (apply pow_lt; lra).
  assert (K0 : 0 <= K) by (destruct (IV 0%Z) as (_ & X & _); eapply Rle_trans; [apply Rabs_pos|exact X]).
  assert (Ik : 0 <= INR k) by apply pos_INR.
  assert (B20 : 0 <= B2) by (destruct (IV 0%Z) as (_ & _ & _ & X); eapply Rle_trans; [apply Rabs_pos|exact X]).
  assert (B10 : 0 <= B1) by (unfold B1; assert (0 <= G ^ k * A) by (apply Rmult_le_pos; lra); lra).
  assert (B2m : B2 <= Bmax).
  { eapply Rle_trans; [|exact HB]. unfold B2. apply Rmult_le_compat; [lra| |apply Rle_pow; [lra|lia]|].
    - assert (0 <= INR k * W) by (apply Rmult_le_pos; lra). lra.
    - apply Rplus_le_compat_l. apply Rmult_le_compat_r; [lra|]. apply le_INR. lia. }
  assert (Bd : forall B, 0 <= B <= Bmax -> (forall i, Rabs (B2R (vs i)) <= B) -> fin (nd k [vs z; vs (z + 1)%Z; vs (z + 2)%Z; vs (z + 3)%Z]) /\
     Rabs (B2R (nd k [vs z; vs (z + 1)%Z; vs (z + 2)%Z; vs (z + 3)%Z]) - nth k Ls (fun _ => 0) (fun i => B2R (vs i))) <= gamma * B + W).
  { intros B R H. apply (Hnd k vs B ltac:(lia) R). intros i. split; [apply IV|apply H]. }
  set (r := nd k _) in *.
  assert (Dl : Rabs (nth k Ls (fun _ => 0) (fun i => B2R (vs i)) - nth k Ls (fun _ => 0) ex) <= G * K).
  { destruct HL as (P & Sc & _).
    replace (nth k Ls (fun _ => 0) (fun i => B2R (vs i)) - nth k Ls (fun _ => 0) ex)
      with (nth k Ls (fun _ => 0) (fun i => B2R (vs i) + -1 * ex i)).
    - apply HG; [lia|]. intros i. replace (B2R (vs i) + -1 * ex i) with (B2R (vs i) - ex i) by ring. apply IV.
    - rewrite P, Sc. ring. }
  assert (Sk : g ^ S k = g * g ^ k) by reflexivity.
  destruct (Bd (Rmin B1 B2)) as (F & Er).
  { split; [apply Rmin_glb; auto|]. eapply Rle_trans; [apply Rmin_r|exact B2m]. }
  { intros i. destruct (IV i) as (_ & X & Y & Z). apply Rmin_glb; auto. unfold B1.
    replace (B2R (vs i)) with (ex i + (B2R (vs i) - ex i)) by ring. apply abs_add; auto. }
  split; [exact F|]. split; [|split].
  - replace (B2R r - nth k Ls (fun _ => 0) ex) with ((B2R r - nth k Ls (fun _ => 0) (fun i => B2R (vs i)))
      + (nth k Ls (fun _ => 0) (fun i => B2R (vs i)) - nth k Ls (fun _ => 0) ex)) by ring.
    eapply Rle_trans; [apply abs_add; [exact Er|exact Dl]|].
    assert (M1 : gamma * Rmin B1 B2 <= gamma * B1) by (apply Rmult_le_compat_l; [lra|apply Rmin_l]).
    assert (M2 : gamma * B1 = gamma * (G ^ k * A) + gamma * K) by (unfold B1; ring).
    assert (M3 : gamma * (G ^ k * A) <= g ^ k * (gamma * A)).
    { replace (g ^ k * (gamma * A)) with (gamma * (g ^ k * A)) by ring. apply Rmult_le_compat_l; [lra|].
      apply Rmult_le_compat_r; [lra|]. apply pow_incr. lra. }
    assert (M4 : W <= g ^ k * W).
    { assert (1 <= g ^ k) by (apply pow_R1_Rle; lra). assert (1 * W <= g ^ k * W) by (apply Rmult_le_compat_r; lra). lra. }
    assert (M5 : g * K = INR k * g ^ k * (gamma * A + W)).
    { unfold K. destruct k; [simpl; ring|]. cbn [Nat.pred]. replace (g ^ S k) with (g * g ^ k) by reflexivity. ring. }
    rewrite S_INR. cbn [Nat.pred].
    replace ((INR k + 1) * g ^ k * (gamma * A + W)) with (g * K + g ^ k * (gamma * A) + g ^ k * W) by (rewrite M5; ring).
    lra.
  - replace (G ^ S k * A) with (G * (G ^ k * A)) by (simpl; ring). apply HG; [lia|]. intros i. apply IV.
  - destruct (Bd B2) as (_ & Er2); [lra|intros i; apply IV|].
    replace (B2R r) with ((B2R r - nth k Ls (fun _ => 0) (fun i => B2R (vs i))) + nth k Ls (fun _ => 0) (fun i => B2R (vs i))) by ring.
    assert (HX : Rabs (nth k Ls (fun _ => 0) (fun i => B2R (vs i))) <= G * B2) by (apply HG; [lia|]; intros i; apply IV).
    eapply Rle_trans; [apply abs_add; [exact Er2|exact HX]|].
    assert (M4 : W <= g ^ S k * W).
    { assert (1 <= g ^ S k) by (apply pow_R1_Rle; lra). assert (1 * W <= g ^ S k * W) by (apply Rmult_le_compat_r; lra). lra. }
    rewrite S_INR. replace (g ^ S k * (A + (INR k + 1) * W)) with (g * B2 + g ^ S k * W) by (unfold B2; rewrite Sk; ring). lra.
Qed.
End Tens.
End B.
