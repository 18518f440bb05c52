(** Floating-point multicubic interpolation and extrapolation without rounding. *)
From Coq Require Import Reals Lra Lia List Bool ZifyBool ZifyNat PeanoNat String.
From Flocq Require Import Core.Core IEEE754.BinarySingleNaN.
From Verif Require Import Base Ops RInst FInst ModelCore ModelLinear ModelCubic ModelPython Spec SpecOrder SpecReal SpecIEEE Interpolators SpecApprox SpecCubicError SpecPython SpecDetect SpecExact SpecCubicExact SpecExtrap SpecExactOut.
From Verif Require Import CoreLemmas TensorLemmas MethodLemmas SearchLemmas MethodChar GenLemmas GenProofs OrderLemmas OrderProofs R1D RTensor RChar REval RProofs FLemmas UtilProofs FProofs FProofs2 FError Approx1D FCubic FCubicReg FCubicRect FExact FExactOut FCubicExact.
Import ListNotations.
Unset Implicit Arguments.
Open Scope string_scope.
Open Scope list_scope.
Open Scope R_scope.

Lemma abs_scaled t r U M : 0 <= t <= U -> Rabs r <= M -> Rabs (t * r) <= U * M.
Proof.
  intros Ht Hr. rewrite Rabs_mult, (Rabs_pos_eq t) by lra. apply Rmult_le_compat; try lra. apply Rabs_pos.
Qed.

Section B.
Variables prec emax : Z.
Context (Hp : Prec_gt_0 prec) (He : Prec_lt_emax prec emax).
Notation fl := (binary_float prec emax).
Notation o := (BOps Hp He).
Notation emin := (3 - emax - prec)%Z.
Notation fin x := (is_finite x = true).
Notation rnd := (rnd prec emax).
Notation is z v := (@is_finite prec emax z = true /\ @B2R prec emax z = v).

Notation is_sub := (is_sub prec emax Hp He).
Notation is_add := (is_add prec emax Hp He).
Notation is_mul := (is_mul prec emax Hp He).
Notation is_div := (is_div prec emax Hp He).
Notation is_fma := (is_fma prec emax Hp He).
Notation is_neg := (is_neg prec emax Hp He).
Notation is_eq := (is_eq prec emax).
Notation is_one := (is_one prec emax Hp He).
Notation is_two := (is_two prec emax Hp He).
Notation unit_fits := (unit_fits prec emax Hp He).
Notation half_ratio := (half_ratio prec emax Hp He).
Notation is_ratio := (is_ratio prec emax Hp He).

(** Whole numbers of 2^-b up to 2^m. *)
Lemma unit_fits_any b m r : (2 <= prec)%Z -> (0 <= b)%Z -> (0 <= m)%Z -> (b + m <= prec)%Z -> whole (bpow radix2 (- b)) r -> Rabs r <= bpow radix2 m -> rnd r = r /\ Rabs r < bpow radix2 emax.
Proof using Hp He.
  intros P2 Hb Hm Hb' W B. assert (E := He). unfold Prec_lt_emax in E. split.
  - apply (whole_exact prec emax Hp He (- b) m); [exact W|exact B|lia|lia].
  - eapply Rle_lt_trans; [exact B|]. apply bpow_lt. lia.
Qed.

(** ** One cubic step *)
Section Cell.
Variables B G b m : Z.
Notation M := (bpow radix2 B).
Notation U := (bpow radix2 m).
Notation K := (bpow radix2 (3 * m + 5)).
Hypothesis P2 : (2 <= prec)%Z.
Hypothesis Hb : (0 <= b)%Z.
Hypothesis Hm : (0 <= m)%Z.
Hypothesis HQ : (emin <= G - 1 - 3 * b)%Z.
Hypothesis HP : (B + (3 * m + 5) - (G - 1 - 3 * b) <= prec)%Z.
Hypothesis HT : (B + (3 * m + 5) < emax)%Z.
Notation W k r := (whole (bpow radix2 (G - 1 - k * b)) r).

Lemma U1 : 1 <= U.
Proof using Hm. change 1 with (bpow radix2 0). apply bpow_le. exact Hm. Qed.
Lemma K_eq : K = 32 * (U * (U * U)).
Proof using. replace (3 * m + 5)%Z with (5 + (m + (m + m)))%Z by lia. rewrite !bpow_plus. reflexivity. Qed.
Lemma K32 : 32 * (U * U) <= K /\ 32 * U <= K /\ 32 <= K /\ 32 * (U * (U * U)) <= K.
Proof using Hm.
  assert (H := U1). rewrite K_eq. assert (A : U <= U * U) by (rewrite <- (Rmult_1_l U) at 1; apply Rmult_le_compat_r; lra).
  assert (A' : U * U <= U * (U * U)) by (rewrite <- (Rmult_1_l (U * U)) at 1; apply Rmult_le_compat_r; lra). lra.
Qed.
Lemma fits k r : (0 <= k <= 3)%Z -> W k r -> Rabs r <= K * M -> rnd r = r /\ Rabs r < bpow radix2 emax.
Proof using Hp He P2 Hb Hm HQ HP HT.
  intros Hk Hw Hr. assert (E4 : bpow radix2 (B + (3 * m + 5)) = K * M) by (rewrite Z.add_comm, bpow_plus; reflexivity). rewrite <- E4 in Hr.
  split; [apply (whole_exact prec emax Hp He (G - 1 - k * b) (B + (3 * m + 5))); auto; nia|].
  eapply Rle_lt_trans; [exact Hr|apply bpow_lt; exact HT].
Qed.
Lemma W_up k k' r : (k <= k')%Z -> W k r -> W k' r.
Proof using Hb. intros H. apply whole_finer. nia. Qed.
Lemma W_mul k t r : whole (bpow radix2 (- b)) t -> W k r -> W (k + 1) (t * r).
Proof using. intros Ht Hr. replace (G - 1 - (k + 1) * b)%Z with (- b + (G - 1 - k * b))%Z by lia. rewrite bpow_plus. apply whole_mul; auto. Qed.
Lemma W_half r : whole (bpow radix2 G) r -> W 0 (r / 2).
Proof using.
  intros (n & ->). exists n. replace (G - 1 - 0 * b)%Z with (G + - (1))%Z by lia. rewrite bpow_plus. change (bpow radix2 (- (1))) with (/ 2). field.
Qed.
Lemma W_whole r : whole (bpow radix2 G) r -> W 0 r.
Proof using. apply whole_finer. lia. Qed.


Definition ex (k : Z) (p : R) (z : fl) (v : R) : Prop := is z v /\ W k v /\ Rabs v <= p * M.
Lemma M_pos : 0 < M. Proof using. apply bpow_gt_0. Qed.
Lemma ex_sub k m' n p x y v w : ex k m' x v -> ex k n y w -> (0 <= k <= 3)%Z -> Rabs (v - w) <= p * M -> p <= K -> ex k p (fsub o x y) (v - w).
Proof using All.
  intros (X & Wx & _) (Y & Wy & _) Hk Hv H16. assert (M0 := M_pos). assert (W' := whole_sub _ _ _ Wx Wy).
  assert (Q : Rabs (v - w) <= K * M) by (eapply Rle_trans; [exact Hv|apply Rmult_le_compat_r; lra]).
  destruct (fits k _ Hk W' Q) as (E & L). split; [apply is_sub; auto|auto].
Qed.
Lemma ex_add k m' n p x y v w : ex k m' x v -> ex k n y w -> (0 <= k <= 3)%Z -> Rabs (v + w) <= p * M -> p <= K -> ex k p (fadd o x y) (v + w).
Proof using All.
  intros (X & Wx & _) (Y & Wy & _) Hk Hv H16. assert (M0 := M_pos). assert (W' := whole_add _ _ _ Wx Wy).
  assert (Q : Rabs (v + w) <= K * M) by (eapply Rle_trans; [exact Hv|apply Rmult_le_compat_r; lra]).
  destruct (fits k _ Hk W' Q) as (E & L). split; [apply is_add; auto|auto].
Qed.
Lemma ex_neg k p x v : ex k p x v -> ex k p (fneg o x) (- v).
Proof using Hp He. intros (X & Wx & B'). split; [apply is_neg; auto|]. split; [apply whole_neg; auto|rewrite Rabs_Ropp; auto]. Qed.
Lemma ex_up k k' p x v : (k <= k')%Z -> ex k p x v -> ex k' p x v.
Proof using Hb. intros H (X & Wx & B'). split; [auto|]. split; [eapply W_up; eauto|auto]. Qed.
Lemma ex_eq k p x v w : ex k p x v -> v = w -> ex k p x w.
Proof using. intros H <-. exact H. Qed.
Definition frac (th : fl) (t : R) : Prop := is th t /\ whole (bpow radix2 (- b)) t /\ 0 <= t <= U.
Lemma ex_tmul k p th t y w : frac th t -> ex k p y w -> (0 <= k < 3)%Z -> U * p <= K -> ex (k + 1) (U * p) (fmul o th y) (t * w).
Proof using All.
  intros (T & Wt & Rt) (Y & Wy & B') Hk H16. assert (M0 := M_pos). assert (W' := W_mul k _ _ Wt Wy). assert (Bt := abs_scaled _ _ _ _ Rt B').
  assert (Q : Rabs (t * w) <= K * M) by (eapply Rle_trans; [exact Bt|rewrite <- Rmult_assoc; apply Rmult_le_compat_r; lra]).
  destruct (fits (k + 1) _ ltac:(lia) W' Q) as (E & L). split; [apply is_mul; auto|]. split; [exact W'|]. rewrite Rmult_assoc. exact Bt.
Qed.
Lemma ex_tfma k m' n p th t y w z v : frac th t -> ex k m' y w -> ex (k + 1) n z v -> (0 <= k < 3)%Z -> Rabs (v + t * w) <= p * M -> p <= K ->
  ex (k + 1) p (fmuladd o y th z) (v + t * w).
Proof using All.
  intros (T & Wt & Rt) (Y & Wy & _) (Z' & Wz & _) Hk Hv H16. assert (M0 := M_pos).
  assert (W' := whole_add _ _ _ Wz (W_mul k _ _ Wt Wy)).
  assert (Q : Rabs (v + t * w) <= K * M) by (eapply Rle_trans; [exact Hv|apply Rmult_le_compat_r; lra]).
  destruct (fits (k + 1) _ ltac:(lia) W' Q) as (E & L). replace (v + t * w) with (w * t + v) in * by ring. split; [apply is_fma; auto|auto].
Qed.

Ltac bounds := repeat match goal with H : Rabs _ <= _ |- _ => apply Rabs_le_inv in H end; apply Rabs_le; lra.
Lemma powers_M : M <= U * M /\ U * M <= U * (U * M) /\ U * (U * M) <= U * (U * (U * M)) /\ 0 < M.
Proof using Hm.
  assert (M0 := M_pos). assert (H := U1). assert (S : forall r, 0 < r -> r <= U * r) by (intros r Hr; rewrite <- (Rmult_1_l r) at 1; apply Rmult_le_compat_r; lra).
  assert (P : forall r, 0 < r -> 0 < U * r) by (intros r Hr; apply Rmult_lt_0_compat; lra). repeat split; auto.
Qed.
Lemma K_M r : Rabs r <= 32 * (U * (U * (U * M))) -> Rabs r <= K * M.
Proof using. intros H. rewrite K_eq. eapply Rle_trans; [exact H|]. right. ring. Qed.
(** The Hermite polynomial. *)
Lemma hermite_exact c th t y0 v dy d k0 m0 k1 m1 : frac th t -> ex 0 1 y0 v -> ex 0 2 dy d -> ex 0 1 k0 m0 -> ex 0 5 k1 m1 -> Rabs (m1 - d) <= 3 * M ->
  ex 3 K (hermite o c th y0 dy k0 k1) (hermite ROps c t v d m0 m1).
Proof using All.
  intros T Y D K0 K1 Hd. destruct powers_M as (M1 & M2 & M3 & M0). assert (HU := U1). destruct K32 as (KU2 & KU1 & KU0 & KU3).
  assert (BY := proj2 (proj2 Y)). assert (BD := proj2 (proj2 D)). assert (BK0 := proj2 (proj2 K0)).
  assert (Rt := proj2 (proj2 T)).
  assert (EA : ex 0 3 (fsub o k0 dy) (m0 - d)) by (eapply ex_sub; eauto; try lia; try lra; bounds).
  assert (EB : ex 0 3 (fadd o (fneg o k1) dy) (- m1 + d)).
  { eapply ex_add; [apply ex_neg; exact K1|exact D|lia| |lra]. bounds. }
  set (a := fsub o k0 dy) in *. set (b' := fadd o (fneg o k1) dy) in *. set (A := m0 - d) in *. set (B' := - m1 + d) in *.
  assert (BA := proj2 (proj2 EA)). assert (BB := proj2 (proj2 EB)).
  assert (E1 : ex 0 1 (fadd o dy a) (d + A)).
  { eapply ex_add; [exact D|exact EA|lia| |lra]. unfold A. replace (d + (m0 - d)) with m0 by ring. exact BK0. }
  assert (BC : Rabs (d + A) <= M) by (replace (d + A) with m0 by (unfold A; ring); lra).
  assert (E2' : ex 0 6 (fadd o a a) (A + A)) by (eapply ex_add; eauto; try lia; try lra; bounds).
  assert (E2 : ex 0 9 (fsub o b' (fadd o a a)) (B' - (A + A))) by (eapply ex_sub; [exact EB|exact E2'|lia|bounds|lra]).
  assert (E3 : ex 0 6 (fsub o a b') (A - B')) by (eapply ex_sub; eauto; try lia; try lra; bounds).
  set (c1 := fadd o dy a) in *. set (c2 := fsub o b' (fadd o a a)) in *. set (c3 := fsub o a b') in *.
  assert (B2 : Rabs (B' - (A + A) + t * (A - B')) <= 15 * (U * M)).
  { assert (X1 := abs_scaled t (A - B') _ _ Rt (proj2 (proj2 E3))). replace (U * (6 * M)) with (6 * (U * M)) in X1 by ring.
    assert (X2 := proj2 (proj2 E2)). bounds. }
  set (p2 := B' - (A + A) + t * (A - B')) in *.
  assert (B1 : Rabs (d + A + t * p2) <= 16 * (U * (U * M))).
  { assert (X1 := abs_scaled t p2 _ _ Rt B2). replace (U * (15 * (U * M))) with (15 * (U * (U * M))) in X1 by ring. bounds. }
  set (p1 := d + A + t * p2) in *.
  assert (BF : Rabs (v + t * p1) <= K * M).
  { apply K_M. assert (X1 := abs_scaled t p1 _ _ Rt B1). replace (U * (16 * (U * (U * M)))) with (16 * (U * (U * (U * M)))) in X1 by ring. bounds. }
  replace (15 * (U * M)) with (15 * U * M) in B2 by ring. replace (16 * (U * (U * M))) with (16 * (U * U) * M) in B1 by ring.
  assert (RV : hermite ROps c t v d m0 m1 = v + t * p1).
  { unfold hermite, p1, p2, A, B'. cbn. destruct (use_fma c); ring. }
  rewrite RV. unfold hermite. fold a b'. fold c1 c2 c3. cbv zeta. destruct (use_fma c).
  - assert (F2 : ex 1 (15 * U) (fmuladd o c3 th c2) p2) by (eapply (ex_tfma 0); [exact T|exact E3|apply (ex_up 0); [lia|exact E2]|lia|exact B2|lra]).
    assert (F1 : ex 2 (16 * (U * U)) (fmuladd o (fmuladd o c3 th c2) th c1) p1) by (eapply (ex_tfma 1); [exact T|exact F2|apply (ex_up 0); [lia|exact E1]|lia|exact B1|lra]).
    eapply (ex_tfma 2); [exact T|exact F1|apply (ex_up 0); [lia|exact Y]|lia|exact BF|lra].
  - assert (F2 : ex 1 (15 * U) (fadd o c2 (fmul o th c3)) p2).
    { eapply ex_add; [apply (ex_up 0); [lia|exact E2]|apply (ex_tmul 0 6); [exact T|exact E3|lia|lra]|lia|exact B2|lra]. }
    assert (F1 : ex 2 (16 * (U * U)) (fadd o c1 (fmul o th (fadd o c2 (fmul o th c3)))) p1).
    { eapply ex_add; [apply (ex_up 0); [lia|exact E1]|apply (ex_tmul 1 (15 * U)); [exact T|exact F2|lia|lra]|lia|exact B1|lra]. }
    eapply ex_add; [apply (ex_up 0); [lia|exact Y]|apply (ex_tmul 2 (16 * (U * U))); [exact T|exact F1|lia|lra]|lia|exact BF|lra].
Qed.
Lemma natural_exact fma dy d k0 m0 : ex 0 2 dy d -> ex 0 1 k0 m0 -> ex 0 5 (natural_k1 o fma dy k0) (2 * d - m0).
Proof using All.
  intros D Kk. assert (M0 := M_pos). destruct K32 as (_ & _ & KU0 & _). assert (KM : 32 * M <= K * M) by (apply Rmult_le_compat_r; lra).
  assert (BD := proj2 (proj2 D)). assert (BK := proj2 (proj2 Kk)).
  assert (W2 : W 0 (2 * d)).
  { replace (2 * d) with (d + d) by ring. apply whole_add; apply D. }
  assert (B2 : Rabs (2 * d) <= K * M) by bounds. destruct (fits 0 _ ltac:(lia) W2 B2) as (E & L).
  assert (I2 := is_two P2). unfold natural_k1. cbv zeta. destruct fma.
  - assert (W3 := whole_sub _ _ _ W2 (proj1 (proj2 Kk))). assert (B3 : Rabs (2 * d - m0) <= 5 * M) by bounds.
    destruct (fits 0 _ ltac:(lia) W3 ltac:(bounds)) as (E' & L'). split; [|split; [exact W3|exact B3]].
    change (2 * d - m0) with (2 * d + - m0) in *. apply is_fma; auto; [apply D|apply is_neg; apply Kk].
  - assert (X : ex 0 4 (fmul o (fadd o (fone o) (fone o)) dy) (2 * d)).
    { split; [apply is_mul; auto; apply D|]. split; [exact W2|bounds]. }
    eapply ex_sub; [exact X|exact Kk|lia|bounds|lra].
Qed.
(** The linear continuation. *)
Lemma linear_exact fma th t y v k m1 : (b + m <= prec)%Z -> frac th t -> 1 <= t -> ex 0 1 y v -> ex 0 5 k m1 -> ex 3 K (linear_ext o fma y k th) (v + m1 * (t - 1)).
Proof using All.
  intros Hb' (T & Wt & Rt) T1 Y Kk. destruct powers_M as (M1 & M2 & M3 & M0). assert (HU := U1). assert (I1 := is_one).
  assert (BY := proj2 (proj2 Y)). assert (BK := proj2 (proj2 Kk)).
  assert (W1 : whole (bpow radix2 (- b)) (t - 1)) by (apply whole_sub; [exact Wt|apply (whole_finer _ 0); [lia|apply (whole_IZR 1)]]).
  destruct (unit_fits_any b m (t - 1) P2 Hb Hm Hb' W1 ltac:(rewrite Rabs_pos_eq; lra)) as (E0 & L0).
  assert (Z0 : is (fsub o th (fone o)) (t - 1)) by (apply is_sub; auto).
  assert (Wm : W 1 (m1 * (t - 1))) by (rewrite Rmult_comm; apply (W_mul 0); [exact W1|apply Kk]).
  assert (Bm : Rabs ((t - 1) * m1) <= U * (5 * M)) by (apply abs_scaled; [lra|exact BK]).
  replace (U * (5 * M)) with (5 * (U * M)) in Bm by ring. rewrite (Rmult_comm (t - 1)) in Bm.
  destruct (fits 1 _ ltac:(lia) Wm ltac:(apply K_M; bounds)) as (E1 & L1).
  assert (WR : W 1 (v + m1 * (t - 1))) by (apply whole_add; [apply (W_up 0); [lia|apply Y]|exact Wm]).
  assert (BR : Rabs (v + m1 * (t - 1)) <= K * M) by (apply K_M; bounds).
  destruct (fits 1 _ ltac:(lia) WR BR) as (E & L).
  split; [|split; [apply (W_up 1); [lia|exact WR]|exact BR]]. unfold linear_ext. destruct fma.
  - rewrite (Rplus_comm v) in *. apply is_fma; auto; [apply Kk|apply Y].
  - apply is_add; auto; [apply Y|apply is_mul; auto; apply Kk].
Qed.

(** *** Regular grids *)
Notation val v := (fin v /\ whole (bpow radix2 G) (B2R v) /\ Rabs (B2R v) <= M).

Lemma ex_val v : val v -> ex 0 1 v (B2R v).
Proof using. intros (F & Hw & Hv). split; [auto|]. split; [apply W_whole; auto|lra]. Qed.
Lemma ex_diff v w : val v -> val w -> ex 0 2 (fsub o v w) (B2R v - B2R w).
Proof using P2 Hb Hm HQ HP HT Hp He.
  intros X Y. eapply ex_sub; [apply ex_val; exact X|apply ex_val; exact Y|lia| |destruct K32; lra]. destruct X as (_ & _ & X), Y as (_ & _ & Y). bounds.
Qed.
Lemma KM32 : 32 * M <= K * M.
Proof using Hm. assert (M0 := M_pos). destruct K32 as (_ & _ & KU0 & _). apply Rmult_le_compat_r; lra. Qed.
Lemma half_exact x r : is x r -> whole (bpow radix2 G) r -> Rabs r <= 2 * M -> ex 0 1 (fdiv o x (fadd o (fone o) (fone o))) (r / 2).
Proof using P2 Hb Hm HQ HP HT Hp He.
  intros X Hw Hr. assert (M0 := M_pos). assert (KM := KM32). assert (W' := W_half _ Hw). assert (B1 : Rabs (r / 2) <= 1 * M) by bounds.
  destruct (fits 0 _ ltac:(lia) W' ltac:(bounds)) as (E & L). split; [|auto]. apply is_div; auto; apply is_two; exact P2.
Qed.
Lemma half_diff v w : val v -> val w -> ex 0 1 (fdiv o (fsub o v w) (fadd o (fone o) (fone o))) ((B2R v - B2R w) / 2).
Proof using P2 Hb Hm HQ HP HT Hp He.
  intros X Y. apply half_exact; [apply (ex_diff v w X Y)|apply whole_sub; [apply X|apply Y]|apply (ex_diff v w X Y)].
Qed.
Lemma nhalf_diff v w : val v -> val w -> ex 0 1 (fdiv o (fneg o (fsub o v w)) (fadd o (fone o) (fone o))) (- (B2R v - B2R w) / 2).
Proof using P2 Hb Hm HQ HP HT Hp He.
  intros X Y. apply half_exact; [apply is_neg, (ex_diff v w X Y)|apply whole_neg, whole_sub; [apply X|apply Y]|].
  rewrite Rabs_Ropp. apply (ex_diff v w X Y).
Qed.

Definition sat_frac (sat : saturation) (t : R) : Prop :=
  match sat with
  | SatNone => 0 <= t <= 1
  | InsideLow => -1 <= t <= 0
  | OutsideLow => - U <= t <= -1
  | InsideHigh => 1 <= t <= 2
  | OutsideHigh => 2 <= t <= 1 + U
  end.
Lemma frac_neg th t : is th t -> whole (bpow radix2 (- b)) t -> - U <= t <= 0 -> frac (fneg o th) (- t).
Proof using Hp He. intros T Hw R. split; [apply is_neg; auto|]. split; [apply whole_neg; auto|lra]. Qed.
Lemma frac_sub th t : (b + m <= prec)%Z -> is th t -> whole (bpow radix2 (- b)) t -> 1 <= t <= 1 + U -> frac (fsub o th (fone o)) (t - 1).
Proof using P2 Hb Hm Hp He.
  intros Hb' T Hw R. assert (W' : whole (bpow radix2 (- b)) (t - 1)).
  { apply whole_sub; auto. apply (whole_finer _ 0); [lia|]. apply (whole_IZR 1). }
  destruct (unit_fits_any b m (t - 1) P2 Hb Hm Hb' W' ltac:(apply Rabs_le; lra)) as (E & L).
  split; [apply is_sub; auto using is_one|]. split; [exact W'|lra].
Qed.

(** Slopes and positions on an evenly spaced rectilinear grid. *)
Lemma over_one p x v : is p 1 -> ex 0 2 x v -> ex 0 2 (fdiv o x p) v.
Proof using P2 Hb Hm HQ HP HT Hp He.
  intros Hp1 (X & Hw & Hm'). assert (M0 := M_pos). assert (KM := KM32). destruct (fits 0 v ltac:(lia) Hw ltac:(bounds)) as (E & L).
  split; [|auto]. apply (is_eq _ (v / 1)); [|field]. assert (Q : v / 1 = v) by field. apply is_div; auto; rewrite ?Q; auto; lra.
Qed.
Lemma cdiff_exact c y0 y1 y2 p q : val y0 -> val y1 -> val y2 -> is p 1 -> is q 1 ->
  ex 0 1 (centered_diff o c y0 y1 y2 p q) ((B2R y2 - B2R y0) / 2).
Proof using P2 Hb Hm HQ HP HT Hp He.
  intros Y0 Y1 Y2 Ip Iq. assert (M0 := M_pos). assert (KM := KM32).
  assert (B0 := proj2 (proj2 Y0)). assert (B1 := proj2 (proj2 Y1)). assert (B2 := proj2 (proj2 Y2)).
  assert (I1 := half_ratio P2 p q Ip Iq). assert (I2 := half_ratio P2 q p Iq Ip).
  assert (D1 := over_one q _ _ Iq (ex_diff y2 y1 Y2 Y1)). assert (D2 := over_one p _ _ Ip (ex_diff y1 y0 Y1 Y0)).
  assert (Hf : forall x v, ex 0 2 x v -> whole (bpow radix2 G) v -> forall r, is r (/ 2) -> ex 0 1 (fmul o r x) (/ 2 * v)).
  { intros x v (X & _ & Hm') Hw r Ir. assert (W' := W_half _ Hw). replace (v / 2) with (/ 2 * v) in W' by field.
    assert (Q : Rabs (/ 2 * v) <= 1 * M) by bounds. destruct (fits 0 _ ltac:(lia) W' ltac:(bounds)) as (E & L).
    split; [apply is_mul; auto|auto]. }
  assert (E2 := Hf _ _ D2 (whole_sub _ _ _ (proj1 (proj2 Y1)) (proj1 (proj2 Y0))) _ I2).
  assert (E1 := Hf _ _ D1 (whole_sub _ _ _ (proj1 (proj2 Y2)) (proj1 (proj2 Y1))) _ I1).
  assert (S : / 2 * (B2R y2 - B2R y1) + / 2 * (B2R y1 - B2R y0) = (B2R y2 - B2R y0) / 2) by field.
  assert (BS : Rabs ((B2R y2 - B2R y0) / 2) <= 1 * M) by bounds.
  assert (WS : W 0 ((B2R y2 - B2R y0) / 2)) by (apply W_half; apply whole_sub; [apply Y2|apply Y0]).
  unfold centered_diff. cbv zeta. destruct (use_fma c).
  - destruct (fits 0 _ ltac:(lia) WS ltac:(bounds)) as (E & L). split; [|auto]. rewrite <- S in *. apply is_fma; auto; [apply D1|apply E2].
  - rewrite <- S in *. eapply ex_add; [exact E1|exact E2|lia|exact BS|destruct K32; lra].
Qed.

Lemma is_gap e q u v : (b + m <= prec)%Z -> (emin <= q)%Z -> (e <= q + b)%Z -> fin u -> fin v -> whole (bpow radix2 q) (B2R u) -> whole (bpow radix2 q) (B2R v) -> Rabs (B2R v - B2R u) <= bpow radix2 (e + m) ->
  Rabs (B2R v - B2R u) < bpow radix2 emax -> is (fsub o v u) (B2R v - B2R u).
Proof using Hp He.
  intros Hb' Lq Le Fu Fv Wu Wv Hd LT. apply is_sub; auto.
  eapply (whole_exact prec emax Hp He q (e + m)); [apply whole_sub; auto|exact Hd|exact Lq|lia].
Qed.
Lemma frac_div e q n d' r : (b + m <= prec)%Z -> (e <= q + b)%Z -> is n r -> is d' (bpow radix2 e) -> whole (bpow radix2 q) r -> 0 <= r <= U * bpow radix2 e -> frac (fdiv o n d') (r / bpow radix2 e).
Proof using P2 Hb Hm Hp He.
  intros Hb' Le N D Hw R. assert (B0 := bpow_gt_0 radix2 e).
  assert (R01 : 0 <= r / bpow radix2 e <= U).
  { split; [apply Rmult_le_pos; [lra|left; apply Rinv_0_lt_compat; lra]|].
    apply Rmult_le_reg_r with (bpow radix2 e); [lra|]. unfold Rdiv. rewrite Rmult_assoc, Rinv_l by lra. lra. }
  assert (Wt : whole (bpow radix2 (- b)) (r / bpow radix2 e)).
  { apply (whole_finer _ (q - e)); [lia|]. destruct Hw as (n' & ->). exists n'.
    replace (q - e)%Z with (q + - e)%Z by lia. rewrite bpow_plus, bpow_opp. unfold Rdiv. ring. }
  destruct (unit_fits_any b m _ P2 Hb Hm Hb' Wt ltac:(rewrite Rabs_pos_eq; lra)) as (E & L).
  split; [apply is_div; auto; lra|]. split; [exact Wt|exact R01].
Qed.

Variables (v0 v1 v2 v3 : fl).
Hypothesis V0 : val v0. Hypothesis V1 : val v1. Hypothesis V2 : val v2. Hypothesis V3 : val v3.
Lemma reg_exact c fo lin sat th t : (b + m <= prec)%Z -> is th t -> whole (bpow radix2 (- b)) t -> sat_frac sat t ->
  ex 3 K (reg_innerp o c fo lin sat th [v0; v1; v2; v3]) (reg_innerp ROps c fo lin sat t [B2R v0; B2R v1; B2R v2; B2R v3]).
Proof using All.
  intros Hb' T Wt St. assert (M0 := M_pos). assert (HU := U1).
  assert (B0 := proj2 (proj2 V0)). assert (B1 := proj2 (proj2 V1)). assert (B2 := proj2 (proj2 V2)). assert (B3 := proj2 (proj2 V3)).
  destruct sat; cbn [sat_frac] in St; unfold reg_innerp; cbn [reg_inner].
  - eapply ex_eq.
    + apply (hermite_exact c th t); [split; [auto|split; [auto|lra]]|apply ex_val; exact V1|apply ex_diff; eauto|apply half_diff; eauto| |].
      * destruct (half_diff v3 v1 V3 V1) as (X1 & X2 & X3). split; [exact X1|split; [exact X2|bounds]].
      * bounds.
    + unfold hermite. cbn. destruct (use_fma c); field.
  - assert (F := frac_neg th t T Wt ltac:(lra)). assert (D := ex_diff v0 v1 V0 V1). assert (K := nhalf_diff v2 v0 V2 V0).
    eapply ex_eq.
    + apply (hermite_exact c _ _ _ _ _ _ _ _ _ _ F (ex_val v1 V1) D K (natural_exact (use_fma c) _ _ _ _ D K)). bounds.
    + unfold hermite, natural_k1. cbn. destruct (use_fma c); field.
  - assert (F := frac_neg th t T Wt ltac:(lra)). assert (D := ex_diff v0 v1 V0 V1). assert (K := nhalf_diff v2 v0 V2 V0).
    assert (N := natural_exact fo _ _ _ _ D K). destruct lin.
    + eapply ex_eq.
      * apply (linear_exact (use_fma c) _ _ _ _ _ _ Hb' F ltac:(lra) (ex_val v0 V0) N).
      * unfold linear_ext, natural_k1. cbn. destruct (use_fma c), fo; field.
    + eapply ex_eq.
      * apply (hermite_exact c _ _ _ _ _ _ _ _ _ _ F (ex_val v1 V1) D K N). bounds.
      * unfold hermite, natural_k1. cbn. destruct (use_fma c), fo; field.
  - assert (F := frac_sub th t Hb' T Wt ltac:(lra)). assert (D := ex_diff v3 v2 V3 V2). assert (K := half_diff v3 v1 V3 V1).
    eapply ex_eq.
    + apply (hermite_exact c _ _ _ _ _ _ _ _ _ _ F (ex_val v2 V2) D K (natural_exact (use_fma c) _ _ _ _ D K)). bounds.
    + unfold hermite, natural_k1. cbn. destruct (use_fma c); field.
  - assert (F := frac_sub th t Hb' T Wt ltac:(lra)). assert (D := ex_diff v3 v2 V3 V2). assert (K := half_diff v3 v1 V3 V1).
    assert (N := natural_exact (use_fma c) _ _ _ _ D K). destruct lin.
    + eapply ex_eq.
      * apply (linear_exact (use_fma c) _ _ _ _ _ _ Hb' F ltac:(lra) (ex_val v3 V3) N).
      * unfold linear_ext, natural_k1. cbn. destruct (use_fma c); field.
    + eapply ex_eq.
      * apply (hermite_exact c _ _ _ _ _ _ _ _ _ _ F (ex_val v2 V2) D K N). bounds.
      * unfold hermite, natural_k1. cbn. destruct (use_fma c); field.
Qed.

(** *** Evenly spaced rectilinear grids *)
Variables (g0 g1 g2 g3 x : fl) (e q : Z).
Hypothesis Hb' : (b + m <= prec)%Z.
Hypothesis Fg : fin g0 /\ fin g1 /\ fin g2 /\ fin g3 /\ fin x.
Hypothesis Wg : whole (bpow radix2 q) (B2R g0) /\ whole (bpow radix2 q) (B2R g1) /\ whole (bpow radix2 q) (B2R g2) /\ whole (bpow radix2 q) (B2R g3) /\ whole (bpow radix2 q) (B2R x).
Hypothesis E01 : B2R g1 - B2R g0 = bpow radix2 e.
Hypothesis E12 : B2R g2 - B2R g1 = bpow radix2 e.
Hypothesis E23 : B2R g3 - B2R g2 = bpow radix2 e.
Hypothesis Lq : (emin <= q)%Z.
Hypothesis Le : (e <= q + b)%Z.
Hypothesis Lm : (e < emax)%Z.
Hypothesis Lx : forall u, u = g1 \/ u = g2 -> Rabs (B2R x - B2R u) < bpow radix2 emax.

Definition sat_cell (sat : saturation) : Prop :=
  match sat with
  | SatNone => B2R g1 <= B2R x <= B2R g2
  | InsideLow => B2R g0 <= B2R x <= B2R g1
  | OutsideLow => B2R g1 - U * bpow radix2 e <= B2R x <= B2R g0
  | InsideHigh => B2R g2 <= B2R x <= B2R g3
  | OutsideHigh => B2R g3 <= B2R x <= B2R g2 + U * bpow radix2 e
  end.
Lemma rect_exact c fma lin sat : sat_cell sat ->
  ex 3 K (rect_innerp o c fma lin sat x [g0; g1; g2; g3] [v0; v1; v2; v3])
          (rect_innerp ROps c fma lin sat (B2R x) [B2R g0; B2R g1; B2R g2; B2R g3] [B2R v0; B2R v1; B2R v2; B2R v3]).
Proof using All.
  intros St. assert (M0 := M_pos). assert (B0 := bpow_gt_0 radix2 e). assert (HU := U1).
  assert (UE : bpow radix2 (e + m) = U * bpow radix2 e) by (rewrite Z.add_comm; apply bpow_plus).
  assert (E1U : bpow radix2 e <= U * bpow radix2 e) by (rewrite <- (Rmult_1_l (bpow radix2 e)) at 1; apply Rmult_le_compat_r; lra).
  assert (LE : bpow radix2 e < bpow radix2 emax) by (apply bpow_lt; exact Lm).
  destruct Fg as (G0 & G1 & G2 & G3 & Fx). destruct Wg as (W0 & W1 & W2 & W3 & Wx).
  assert (C0 := proj2 (proj2 V0)). assert (C1 := proj2 (proj2 V1)). assert (C2 := proj2 (proj2 V2)). assert (C3 := proj2 (proj2 V3)).
  assert (I1 := is_one).
  assert (H01 : is (fsub o g1 g0) (bpow radix2 e)) by (rewrite <- E01; apply (is_gap e q); auto; rewrite E01, Rabs_pos_eq; lra).
  assert (H12 : is (fsub o g2 g1) (bpow radix2 e)) by (rewrite <- E12; apply (is_gap e q); auto; rewrite E12, Rabs_pos_eq; lra).
  assert (H23 : is (fsub o g3 g2) (bpow radix2 e)) by (rewrite <- E23; apply (is_gap e q); auto; rewrite E23, Rabs_pos_eq; lra).
  assert (R01 := is_ratio P2 e _ _ H01 H12). assert (R10 := is_ratio P2 e _ _ H12 H01).
  assert (R12 := is_ratio P2 e _ _ H12 H23). assert (R21 := is_ratio P2 e _ _ H23 H12).
  assert (Up : forall u d', (u = g1 \/ u = g2) -> fin u -> whole (bpow radix2 q) (B2R u) -> is d' (bpow radix2 e) -> B2R u <= B2R x <= B2R u + U * bpow radix2 e ->
    frac (fdiv o (fsub o x u) d') ((B2R x - B2R u) / bpow radix2 e)).
  { intros u d' Iu Fu Wu D R. apply (frac_div e q); auto; [apply (is_gap e q); auto; rewrite Rabs_pos_eq; lra|apply whole_sub; auto|lra]. }
  assert (Dn : forall u d', (u = g1 \/ u = g2) -> fin u -> whole (bpow radix2 q) (B2R u) -> is d' (bpow radix2 e) -> B2R u - U * bpow radix2 e <= B2R x <= B2R u ->
    frac (fdiv o (fneg o (fsub o x u)) d') (- (B2R x - B2R u) / bpow radix2 e)).
  { intros u d' Iu Fu Wu D R. apply (frac_div e q); auto; [apply is_neg, (is_gap e q); auto; apply Rabs_le; lra|apply whole_neg, whole_sub; auto|lra]. }
  assert (One : forall r, bpow radix2 e <= r -> 1 <= r / bpow radix2 e).
  { intros r Hr. apply Rmult_le_reg_r with (bpow radix2 e); [lra|]. unfold Rdiv. rewrite Rmult_assoc, Rinv_l by lra. lra. }
  destruct sat; cbn [sat_cell] in St; unfold rect_innerp; cbn [rect_inner].
  - assert (F := Up g1 _ (or_introl eq_refl) G1 W1 H12 ltac:(lra)). assert (D := ex_diff v2 v1 V2 V1).
    assert (K0 := cdiff_exact c v0 v1 v2 _ _ V0 V1 V2 R01 I1). destruct (cdiff_exact c v1 v2 v3 _ _ V1 V2 V3 I1 R21) as (X1 & X2 & X3).
    eapply ex_eq.
    + eapply (hermite_exact c _ _ _ _ _ _ _ _ _ _ F (ex_val v1 V1) D K0); [split; [exact X1|split; [exact X2|bounds]]|bounds].
    + unfold hermite, centered_diff. cbn. rewrite E01, E12, E23. destruct (use_fma c); field; lra.
  - assert (F := Dn g1 _ (or_introl eq_refl) G1 W1 H01 ltac:(lra)). assert (D := ex_diff v0 v1 V0 V1).
    assert (K := ex_neg _ _ _ _ (cdiff_exact c v0 v1 v2 _ _ V0 V1 V2 I1 R10)).
    eapply ex_eq.
    + apply (hermite_exact c _ _ _ _ _ _ _ _ _ _ F (ex_val v1 V1) D K (natural_exact fma _ _ _ _ D K)). bounds.
    + unfold hermite, natural_k1, centered_diff. cbn. rewrite E01, E12. destruct (use_fma c), fma; field; lra.
  - assert (F := Dn g1 _ (or_introl eq_refl) G1 W1 H01 ltac:(lra)). assert (D := ex_diff v0 v1 V0 V1).
    assert (K := ex_neg _ _ _ _ (cdiff_exact c v0 v1 v2 _ _ V0 V1 V2 I1 R10)).
    assert (N := natural_exact false _ _ _ _ D K). destruct lin.
    + assert (T1 : 1 <= - (B2R x - B2R g1) / bpow radix2 e) by (apply One; lra).
      eapply ex_eq.
      * apply (linear_exact fma _ _ _ _ _ _ Hb' F T1 (ex_val v0 V0) N).
      * unfold linear_ext, natural_k1, centered_diff. cbn. rewrite E01, E12. destruct fma, (use_fma c); field; lra.
    + eapply ex_eq.
      * apply (hermite_exact c _ _ _ _ _ _ _ _ _ _ F (ex_val v1 V1) D K N). bounds.
      * unfold hermite, natural_k1, centered_diff. cbn. rewrite E01, E12. destruct (use_fma c); field; lra.
  - assert (F := Up g2 _ (or_intror eq_refl) G2 W2 H23 ltac:(lra)). assert (D := ex_diff v3 v2 V3 V2).
    assert (K := cdiff_exact c v1 v2 v3 _ _ V1 V2 V3 R12 I1).
    eapply ex_eq.
    + apply (hermite_exact c _ _ _ _ _ _ _ _ _ _ F (ex_val v2 V2) D K (natural_exact fma _ _ _ _ D K)). bounds.
    + unfold hermite, natural_k1, centered_diff. cbn. rewrite E12, E23. destruct (use_fma c), fma; field; lra.
  - assert (F := Up g2 _ (or_intror eq_refl) G2 W2 H23 ltac:(lra)). assert (D := ex_diff v3 v2 V3 V2).
    assert (K := cdiff_exact c v1 v2 v3 _ _ V1 V2 V3 R12 I1).
    assert (N := natural_exact false _ _ _ _ D K). destruct lin.
    + assert (T1 : 1 <= (B2R x - B2R g2) / bpow radix2 e) by (apply One; lra).
      eapply ex_eq.
      * apply (linear_exact fma _ _ _ _ _ _ Hb' F T1 (ex_val v3 V3) N).
      * unfold linear_ext, natural_k1, centered_diff. cbn. rewrite E12, E23. destruct fma, (use_fma c); field; lra.
    + eapply ex_eq.
      * apply (hermite_exact c _ _ _ _ _ _ _ _ _ _ F (ex_val v2 V2) D K N). bounds.
      * unfold hermite, natural_k1, centered_diff. cbn. rewrite E12, E23. destruct (use_fma c); field; lra.
Qed.
End Cell.

(** ** A regular axis *)
Section RegAxis.
Variables (b m : Z) (start h x : fl) (d : Z).
Hypothesis P2 : (2 <= prec <= 62)%Z.
Hypothesis Hb : (0 <= b)%Z.
Hypothesis Hm : (0 <= m)%Z.
Hypothesis Hd : (4 <= d)%Z.
Hypothesis HA : dyadic_axis_any prec emax b m start h x d.
Notation s := (B2R start).
Notation w := (B2R h).
Notation X := (B2R x).
Notation T := ((X - s) / w).
Notation a := (mkAxis d (fun i => s + w * IZR i)).
Notation U := (bpow radix2 m).

Lemma bits : (b + (m + 1) <= prec)%Z.
Proof using P2 Hd Hm HA.
  destruct HA as (_ & _ & _ & e & _ & _ & _ & _ & _ & _ & _ & _ & Dp).
  assert (0 < 2 ^ m)%Z by (apply Z.pow_pos_nonneg; lia).
  destruct (Z_le_gt_dec (b + (m + 1)) prec) as [|C]; auto. exfalso.
  destruct (Z_le_gt_dec 0 (prec - b)).
  - assert (2 ^ (prec - b) <= 2 ^ m)%Z by (apply Z.pow_le_mono_r; lia). lia.
  - rewrite (Z.pow_neg_r 2 (prec - b)) in Dp by lia. lia.
Qed.
Lemma U_ge1 : 1 <= U.
Proof using Hm. change 1 with (bpow radix2 0). apply bpow_le. exact Hm. Qed.
Lemma step_pos : 0 < w.
Proof using HA. destruct HA as (_ & _ & _ & e & -> & _). apply bpow_gt_0. Qed.
Lemma T_range : - ((U - 1) / 2) <= T <= IZR (d - 1) + (U - 1) / 2 /\ X = s + w * T.
Proof using HA.
  assert (S0 := step_pos). assert (Q : X = s + w * T) by (field; lra). split; [|exact Q].
  destruct HA as (_ & _ & _ & e & H). cbv zeta in H. destruct H as (_ & _ & _ & _ & _ & Hx & _). unfold at_most_outside in Hx.
  assert (Q1 : - T <= overshoot a X).
  { unfold overshoot. eapply Rle_trans; [|apply Rmax_r]. eapply Rle_trans; [|apply Rmax_l]. unfold spacing. cbn [coord].
    change (IZR (0 + 1)) with 1. change (IZR 0) with 0. right. field. lra. }
  assert (Q2 : T - IZR (d - 1) <= overshoot a X).
  { unfold overshoot. eapply Rle_trans; [|apply Rmax_r]. eapply Rle_trans; [|apply Rmax_r]. unfold spacing. cbn [coord npts].
    replace (d - 2 + 1)%Z with (d - 1)%Z by lia. replace (IZR (d - 1)) with (IZR (d - 2) + 1) by (rewrite <- plus_IZR; f_equal; lia). right. field. lra. }
  lra.
Qed.
Lemma length_fits : IZR (d - 1) + (U - 1) <= bpow radix2 (prec - b).
Proof using P2 Hb Hm Hd HA.
  assert (Hb' := bits). destruct HA as (_ & _ & _ & e & H). cbv zeta in H. destruct H as (_ & _ & _ & _ & _ & _ & _ & _ & Dp).
  assert (PM : U = IZR (2 ^ m)) by (symmetry; apply (IZR_Zpower radix2); exact Hm).
  rewrite PM, <- minus_IZR, <- plus_IZR, <- IZR_Zpower by lia. apply IZR_le. exact Dp.
Qed.
Lemma exact_cell : to_isize o (ffloor o (fdiv o (fsub o x start) h)) = Some (Zfloor T) /\ whole (bpow radix2 (- b)) T.
Proof using Hp He P2 Hb Hm Hd HA.
  assert (Hb' := bits). assert (S0 := step_pos). destruct T_range as (TR & _).
  destruct HA as (Fs & Fh & Fx & e & H). cbv zeta in H. destruct H as (Vh & Lq & Hq & Ws & Wx & Hx & Bs & Bl & Dp).
  set (q := (e - b)%Z) in *.
  assert (ID := length_fits). assert (HU := U_ge1). assert (D1r : 0 <= IZR (d - 1)) by (apply IZR_le; lia).
  assert (LS : w * IZR (d - 1) <= bpow radix2 (prec + q)).
  { rewrite Vh. replace (prec + q)%Z with (e + (prec - b))%Z by (unfold q; lia). rewrite bpow_plus. apply Rmult_le_compat_l; [apply bpow_ge_0|lra]. }
  assert (LT : bpow radix2 (prec + q) < bpow radix2 emax) by (apply bpow_lt; exact Hq).
  assert (W1 := whole_sub _ _ _ Wx Ws).
  assert (AT : Rabs T <= bpow radix2 (prec - b)) by (apply Rabs_le; lra).
  assert (A1 : Rabs (X - s) <= bpow radix2 (prec + q)).
  { replace (X - s) with (T * w) by (field; lra). rewrite Rabs_mult, (Rabs_pos_eq w), Vh by lra.
    replace (prec + q)%Z with (prec - b + e)%Z by (unfold q; lia). rewrite bpow_plus. apply Rmult_le_compat_r; [apply bpow_ge_0|]. rewrite <- Vh. exact AT. }
  assert (X1 : rnd (X - s) = X - s) by (eapply (whole_exact prec emax Hp He); [exact W1|exact A1|lia|lia]).
  assert (I1 : is (fsub o x start) (X - s)) by (apply is_sub; auto; lra).
  assert (Ww : whole (bpow radix2 (- b)) T).
  { destruct W1 as (n & E). exists n. rewrite E, Vh. replace (- b)%Z with (q + - e)%Z by (unfold q; lia). rewrite bpow_plus, bpow_opp. unfold Rdiv. ring. }
  assert (Em : (emin <= - b)%Z) by (unfold Prec_lt_emax in He; lia).
  assert (Xr : rnd T = T) by (apply (whole_exact prec emax Hp He (- b) (prec - b)); [exact Ww|exact AT|exact Em|lia]).
  assert (PE : bpow radix2 (prec - b) < bpow radix2 emax) by (apply bpow_lt; unfold Prec_lt_emax in He; lia).
  assert (I2 : is (fdiv o (fsub o x start) h) T) by (apply is_div; auto; lra).
  destruct I2 as (F2 & V2). split; [|exact Ww]. rewrite <- V2. apply (to_isize_fits prec emax Hp He); auto. rewrite V2.
  assert (P62 : bpow radix2 (prec - b) <= IZR (2 ^ 62)).
  { rewrite <- (IZR_Zpower radix2) by lia. apply IZR_le. apply Z.pow_le_mono_r; lia. }
  apply Rabs_le_inv in AT. split.
  - apply Rle_trans with (- IZR (2 ^ 62)); [|lra]. rewrite <- !opp_IZR. apply IZR_le. lia.
  - eapply Rle_lt_trans; [|apply (IZR_lt (2 ^ 62)); lia]. lra.
Qed.
Lemma exact_dtp n : (0 <= n <= d - 1)%Z -> Rabs (T - IZR n) <= bpow radix2 (m + 1) ->
  is (reg_dtp o false start h x n) (T - IZR n) /\ whole (bpow radix2 (- b)) (T - IZR n).
Proof using Hp He P2 Hb Hm Hd HA.
  intros Hn Ht. assert (Hb' := bits). assert (S0 := step_pos). destruct T_range as (TR & XT). destruct exact_cell as (_ & WT).
  destruct HA as (Fs & Fh & Fx & e & H). cbv zeta in H. destruct H as (Vh & Lq & Hq & Ws & Wx & Hx & Bs & Bl & Dp).
  set (q := (e - b)%Z) in *. assert (B0 := bpow_gt_0 radix2 e).
  assert (ID := length_fits). assert (HU := U_ge1). assert (D1r : 0 <= IZR (d - 1)) by (apply IZR_le; lia).
  assert (LS : w * IZR (d - 1) <= bpow radix2 (prec + q)).
  { rewrite Vh. replace (prec + q)%Z with (e + (prec - b))%Z by (unfold q; lia). rewrite bpow_plus. apply Rmult_le_compat_l; lra. }
  assert (LT : bpow radix2 (prec + q) < bpow radix2 emax) by (apply bpow_lt; exact Hq).
  assert (P2b : (2 ^ (prec - b) <= 2 ^ prec)%Z) by (apply Z.pow_le_mono_r; lia).
  destruct (of_usize_some Hp He n) as (nf & En). destruct (of_usize_spec En) as (Fn & Vn); [lia|].
  assert (In : is nf (IZR n)) by auto.
  assert (I0r : 0 <= IZR n) by (apply IZR_le; lia).
  assert (Id : IZR n <= IZR (d - 1)) by (apply IZR_le; lia).
  assert (Wm : whole (bpow radix2 e) (w * IZR n)) by (exists n; rewrite Vh; ring).
  assert (Am : 0 <= w * IZR n <= w * IZR (d - 1)) by (split; [apply Rmult_le_pos; lra|apply Rmult_le_compat_l; lra]).
  assert (Xm : rnd (w * IZR n) = w * IZR n).
  { apply (whole_exact prec emax Hp He e (prec + q)); [exact Wm|rewrite Rabs_pos_eq; lra|lia|unfold q; lia]. }
  assert (Wa : whole (bpow radix2 q) (s + w * IZR n)).
  { apply whole_add; [exact Ws|]. eapply whole_finer; [|exact Wm]. unfold q; lia. }
  assert (Aa : Rabs (s + w * IZR n) <= bpow radix2 (prec + q)).
  { apply Rabs_le_inv in Bs. apply Rabs_le_inv in Bl. apply Rabs_le. lra. }
  assert (Xa : rnd (s + w * IZR n) = s + w * IZR n) by (eapply (whole_exact prec emax Hp He); [exact Wa|exact Aa|lia|lia]).
  assert (Im : is (fmul o h nf) (w * IZR n)) by (apply is_mul; auto; rewrite Rabs_pos_eq; lra).
  assert (Ia : is (fadd o start (fmul o h nf)) (s + w * IZR n)) by (apply is_add; auto; lra).
  unfold reg_dtp, uf. rewrite En. set (node := fadd o start (fmul o h nf)) in *.
  assert (Ed : X - (s + w * IZR n) = (T - IZR n) * w) by (rewrite XT at 1; ring).
  assert (Wd : whole (bpow radix2 q) (X - (s + w * IZR n))) by (apply whole_sub; auto).
  assert (Ad : Rabs (X - (s + w * IZR n)) <= bpow radix2 (e + (m + 1))).
  { rewrite Ed, Rabs_mult, (Rabs_pos_eq w) by lra. rewrite Z.add_comm, bpow_plus, <- Vh. apply Rmult_le_compat_r; lra. }
  assert (Xd : rnd (X - (s + w * IZR n)) = X - (s + w * IZR n)) by (eapply (whole_exact prec emax Hp He); [exact Wd|exact Ad|lia|unfold q; lia]).
  assert (LE : bpow radix2 (e + (m + 1)) < bpow radix2 emax) by (apply bpow_lt; unfold q in Hq; lia).
  assert (Is : is (fsub o x node) (X - (s + w * IZR n))) by (apply is_sub; auto; lra).
  assert (Wt : whole (bpow radix2 (- b)) (T - IZR n)).
  { apply whole_sub; [exact WT|]. eapply whole_finer; [|apply whole_IZR]. lia. }
  split; [|exact Wt].
  assert (Et : (X - (s + w * IZR n)) / w = T - IZR n) by (field; lra).
  destruct (unit_fits_any b (m + 1) _ (proj1 P2) Hb ltac:(lia) Hb' Wt Ht) as (R1 & R2).
  apply (is_eq _ ((X - (s + w * IZR n)) / w)); [|exact Et]. apply is_div; auto; [lra|rewrite Et; exact R1|rewrite Et; exact R2].
Qed.

Theorem cubic_axis_exact_any c : exists i sat, creg_cell o c start h d x = Ok (i, sat) /\
  forall fo lin vs B G, (emin <= G - 1 - 3 * b)%Z -> (B + (3 * m + 5) - (G - 1 - 3 * b) <= prec)%Z -> (B + (3 * m + 5) < emax)%Z ->
  (forall i, fin (vs i) /\ whole (bpow radix2 G) (B2R (vs i)) /\ Rabs (B2R (vs i)) <= bpow radix2 B) ->
  let r := reg_innerp o c fo lin sat (creg_dtp o start h x i) [vs i; vs (i + 1)%Z; vs (i + 2)%Z; vs (i + 3)%Z] in
  is r (cub1 lin a X (fun i => B2R (vs i))) /\ whole (bpow radix2 (G - 1 - 3 * b)) (B2R r) /\ Rabs (B2R r) <= bpow radix2 (3 * m + 5 + B).
Proof using Hp He P2 Hb Hm Hd HA.
  destruct exact_cell as (Ei & _). assert (S0 := step_pos). destruct T_range as ((T0 & T1) & XT). assert (Hb' := bits). assert (HU := U_ge1).
  set (z := Zfloor T) in *.
  assert (L : IZR z <= T) by apply Zfloor_lb. assert (L' : T < IZR z + 1) by apply Zfloor_ub.
  assert (TI : Rabs T <= IZR (2 ^ 62)).
  { eapply Rle_trans; [|apply Rle_trans with (1 := length_fits); rewrite <- (IZR_Zpower radix2) by lia; apply IZR_le; apply Z.pow_le_mono_r; lia].
    assert (0 <= IZR (d - 1)) by (apply IZR_le; lia). apply Rabs_le. lra. }
  apply Rabs_le_inv in TI.
  assert (Zb : (isize_min + 1 <= z <= isize_max)%Z).
  { split; [apply Z.le_trans with (- 2 ^ 62)%Z; [unfold isize_min; lia|apply Zfloor_lub; rewrite opp_IZR; lra]|].
    apply Z.le_trans with (2 ^ 62)%Z; [apply le_IZR; lra|unfold isize_max; lia]. }
  exists (Z.min (Z.max (z - 1) 0) (d - 4)), (creg_sat d (z - 1)). split.
  { unfold creg_cell. rewrite Ei. cbn [ok_or bind]. rewrite isize_sub_ok by (unfold isize_min, isize_max in *; lia). reflexivity. }
  set (j := Z.min (Z.max z (-1)) (d - 1)).
  set (i := Z.min (Z.max (z - 1) 0) (d - 4)). set (sat := creg_sat d (z - 1)).
  assert (Hi : (0 <= i <= d - 4)%Z) by (unfold i; lia).
  assert (CS : cub_cell_sat d i sat j).
  { unfold cub_cell_sat, sat, creg_sat, i, j.
    destruct (Z.ltb_spec (z - 1) (-1)); [lia|]. destruct (Z.eqb_spec (z - 1) (-1)); [lia|].
    destruct (Z.ltb_spec (d - 3) (z - 1)); [lia|]. destruct (Z.eqb_spec (z - 1) (d - 3)); lia. }
  assert (JL : j = (-1)%Z \/ IZR j <= T).
  { destruct (Z.eq_dec j (-1)) as [C|C]; [left; exact C|right]. apply Rle_trans with (2 := L). apply IZR_le. unfold j in *. lia. }
  assert (JU : j = (d - 1)%Z \/ T <= IZR (j + 1)).
  { destruct (Z.eq_dec j (d - 1)) as [C|C]; [left; exact C|right]. left. apply Rlt_le_trans with (1 := L'). rewrite <- plus_IZR. apply IZR_le. unfold j in *. lia. }
  assert (J0 : (-1 <= j <= d - 1)%Z) by (unfold j; lia).
  rewrite minus_IZR in T1. assert (D4 : 4 <= IZR d) by (apply IZR_le; exact Hd).
  assert (E1 : bpow radix2 (m + 1) = 2 * U) by (rewrite Z.add_comm; apply bpow_plus).
  assert (SF : sat_frac m sat (T - IZR (i + 1)) /\ Rabs (T - IZR (i + 1)) <= bpow radix2 (m + 1)).
  { rewrite E1. clearbody i sat j. rewrite plus_IZR in *. destruct sat; cbn [cub_cell_sat sat_frac] in *; destruct CS as (C1 & C2).
    - rewrite C1, plus_IZR in *. destruct JL as [JL|JL]; [lia|]. destruct JU as [JU|JU]; [lia|]. split; [lra|apply Rabs_le; lra].
    - rewrite C1, C2 in *. destruct JL as [JL|JL]; [lia|]. destruct JU as [JU|JU]; [lia|]. split; [lra|apply Rabs_le; lra].
    - rewrite C1, C2 in *. destruct JU as [JU|JU]; [lia|]. split; [lra|apply Rabs_le; lra].
    - rewrite C1, C2, !minus_IZR in *. destruct JL as [JL|JL]; [lia|]. destruct JU as [JU|JU]; [lia|]. split; [lra|apply Rabs_le; lra].
    - rewrite C1, C2, !minus_IZR in *. destruct JL as [JL|JL]; [lia|]. split; [lra|apply Rabs_le; lra]. }
  destruct SF as (SF & AF). destruct (exact_dtp (i + 1) ltac:(lia) AF) as (It & Wt).
  intros fo lin vs B G HQ HP HT Hv. cbv zeta.
  destruct (reg_exact B G b m (proj1 P2) Hb Hm HQ HP HT (vs i) (vs (i + 1)%Z) (vs (i + 2)%Z) (vs (i + 3)%Z) (Hv _) (Hv _) (Hv _) (Hv _)
    c fo lin sat (creg_dtp o start h x i) (T - IZR (i + 1)) ltac:(lia) It Wt SF) as (Ir & Wr & Br).
  assert (R : reg_innerp ROps c fo lin sat (T - IZR (i + 1)) [B2R (vs i); B2R (vs (i + 1)%Z); B2R (vs (i + 2)%Z); B2R (vs (i + 3)%Z)]
     = cub1 lin a X (fun i => B2R (vs i))).
  { replace (T - IZR (i + 1)) with (creg_dtp ROps s w X i) by (unfold creg_dtp, uf; simpl; field; lra).
    rewrite (@reg_rect_inner c fo fo lin sat s w X i) by auto.
    apply (@cub_axis a lin X i sat j (fun i => B2R (vs i))); auto.
    - split; [apply reg_axis_inc; auto|exact Hd].
    - unfold outer_adm, adm. cbn [coord npts]. split; [exact J0|]. split; [destruct JL as [JL|JL]; [left; exact JL|right]|destruct JU as [JU|JU]; [left; exact JU|right]].
      + rewrite XT. apply Rplus_le_compat_l. apply Rmult_le_compat_l; lra.
      + rewrite XT. apply Rplus_le_compat_l. apply Rmult_le_compat_l; lra. }
  rewrite R in Ir, Wr, Br. rewrite <- bpow_plus in Br. split; [exact Ir|]. rewrite (proj2 Ir). split; [exact Wr|exact Br].
Qed.
End RegAxis.

(** ** An evenly spaced rectilinear axis *)
Section RectAxis.
Variables (b m : Z) (g : list fl) (x : fl).
Notation a := (list_axis (map (@B2R prec emax) g)).
Notation X := (B2R x).
Notation U := (bpow radix2 m).
Hypothesis P2 : (2 <= prec)%Z.
Hypothesis Hb : (0 <= b)%Z.
Hypothesis Hm : (0 <= m)%Z.
Hypothesis Hb' : (b + m <= prec)%Z.
Hypothesis Ig : increasing_grid o g.
Hypothesis Hg : (4 <= zlen g)%Z.
Hypothesis Sg : Forall (@moderate prec emax) g.
Hypothesis Sx : @moderate prec emax x.
Hypothesis Hx : at_most_outside m a X.
Hypothesis HD : even_dyadic_grid prec emax b g x.

Lemma rect_inc : strictly_increasing (map (@B2R prec emax) g).
Proof using All. apply (increasing_B2R prec emax Hp He); auto. eapply fin_grid; eauto. Qed.
Theorem crect_axis_exact_any c fma lin vs B G : (emin <= G - 1 - 3 * b)%Z -> (B + (3 * m + 5) - (G - 1 - 3 * b) <= prec)%Z -> (B + (3 * m + 5) < emax)%Z ->
  (forall i, fin (vs i) /\ whole (bpow radix2 G) (B2R (vs i)) /\ Rabs (B2R (vs i)) <= bpow radix2 B) ->
  let p := crect_cell o g x in
  let r := rect_innerp o c fma lin (snd p) x (cell4 o g (fst p)) [vs (fst p); vs (fst p + 1)%Z; vs (fst p + 2)%Z; vs (fst p + 3)%Z] in
  is r (cub1 lin a X (fun i => B2R (vs i))) /\ whole (bpow radix2 (G - 1 - 3 * b)) (B2R r) /\ Rabs (B2R r) <= bpow radix2 (3 * m + 5 + B).
Proof using All.
  intros HQ HP HT Hv p r. assert (SI := rect_inc). assert (Fx := proj1 Sx).
  assert (L : (zlen (map (@B2R prec emax) g) = zlen g)) by apply zlen_map.
  assert (Rg := @crect_cell_range _ o g x ltac:(lia)). fold p in Rg.
  destruct HD as (e & Lq & Wx & Wg & Q).
  assert (Hz : forall i, (0 <= i < zlen g)%Z -> @moderate prec emax (gz o g i)).
  { intros i Hi. unfold gz. apply (Forall_nth_lt (fzero o) Sg). unfold zlen in Hi. lia. }
  assert (Wz : forall i, (0 <= i < zlen g)%Z -> whole (bpow radix2 (e - b)) (B2R (gz o g i))).
  { intros i Hi. unfold gz. apply (Forall_nth_lt (fzero o) Wg). unfold zlen in Hi. lia. }
  assert (Ez : forall i, (0 <= i)%Z -> (i + 1 < zlen g)%Z -> B2R (gz o g (i + 1)) - B2R (gz o g i) = bpow radix2 e).
  { intros j J0 J1. unfold gz. unfold zlen in J1.
    apply (Q (Z.to_nat j)); [|replace (S (Z.to_nat j)) with (Z.to_nat (j + 1)) by lia]; apply nth_error_nth_some; lia. }
  assert (EM : bpow radix2 (emax - 2) + bpow radix2 (emax - 2) < bpow radix2 emax).
  { replace (bpow radix2 (emax - 2) + bpow radix2 (emax - 2)) with (bpow radix2 (emax - 1)); [apply bpow_lt; lia|].
    replace (emax - 1)%Z with (1 + (emax - 2))%Z by lia. rewrite bpow_plus. change (bpow radix2 1) with 2. ring. }
  assert (Df : forall u v, @moderate prec emax u -> @moderate prec emax v -> Rabs (B2R v - B2R u) < bpow radix2 emax).
  { intros u v (_ & Su) (_ & Sv). apply Rabs_le_inv in Su. apply Rabs_le_inv in Sv. apply Rabs_lt. lra. }
  assert (Lm : (e < emax)%Z).
  { apply (lt_bpow radix2). rewrite <- (Ez 0%Z) by lia. assert (Q' := Df _ _ (Hz 0%Z ltac:(lia)) (Hz (0 + 1)%Z ltac:(lia))).
    eapply Rle_lt_trans; [apply Rle_abs|exact Q']. }
  assert (E0 := bpow_gt_0 radix2 e).
  assert (HU : 1 <= U) by (change 1 with (bpow radix2 0); apply bpow_le; exact Hm).
  unfold at_most_outside in Hx.
  assert (Hx0 : B2R (gz o g 0) - X <= (U - 1) / 2 * bpow radix2 e).
  { assert (Q' : (B2R (gz o g 0) - X) / bpow radix2 e <= overshoot a X).
    { unfold overshoot. eapply Rle_trans; [|apply Rmax_r]. eapply Rle_trans; [|apply Rmax_l]. unfold spacing. rewrite !(coord_gz prec emax Hp He), (Ez 0%Z) by lia. lra. }
    replace (B2R (gz o g 0) - X) with ((B2R (gz o g 0) - X) / bpow radix2 e * bpow radix2 e) by (field; lra). apply Rmult_le_compat_r; lra. }
  assert (Hx1 : X - B2R (gz o g (zlen g - 1)) <= (U - 1) / 2 * bpow radix2 e).
  { assert (Q' : (X - B2R (gz o g (zlen g - 1))) / bpow radix2 e <= overshoot a X).
    { unfold overshoot. eapply Rle_trans; [|apply Rmax_r]. eapply Rle_trans; [|apply Rmax_r]. unfold list_axis at 2 4. cbn [npts]. rewrite L.
      unfold spacing. rewrite !(coord_gz prec emax Hp He), (Ez (zlen g - 2)%Z) by lia. lra. }
    replace (X - B2R (gz o g (zlen g - 1))) with ((X - B2R (gz o g (zlen g - 1))) / bpow radix2 e * bpow radix2 e) by (field; lra). apply Rmult_le_compat_r; lra. }
  assert (UE : (U - 1) / 2 * bpow radix2 e + bpow radix2 e <= U * bpow radix2 e).
  { replace ((U - 1) / 2 * bpow radix2 e + bpow radix2 e) with ((U + 1) / 2 * bpow radix2 e) by field. apply Rmult_le_compat_r; lra. }
  assert (Sat : sat_cell m (gz o g (fst p)) (gz o g (fst p + 1)) (gz o g (fst p + 2)) (gz o g (fst p + 3)) x e (snd p)).
  { destruct (@pp_of_R (map B2R g) X SI) as (P0 & P1 & P2'). rewrite <- (pp_of_float prec emax Hp He g x Sg Fx) in P0, P1, P2'. rewrite L in *.
    assert (P1' : forall i, (0 <= i < pp_of o g x)%Z -> B2R (gz o g i) < X).
    { intros i Hi'. rewrite <- (coord_gz prec emax Hp He). exact (P1 i Hi'). }
    assert (P3' : forall i, (pp_of o g x <= i < zlen g)%Z -> X <= B2R (gz o g i)).
    { intros i Hi'. rewrite <- (coord_gz prec emax Hp He). exact (P2' i Hi'). }
    unfold p, crect_cell. cbn [fst snd]. set (q := pp_of o g x) in *. unfold crect_sat.
    destruct (Z.eqb_spec (q - 2) (-2)); [|destruct (Z.eqb_spec (q - 2) (-1)); [|destruct (Z.eqb_spec (q - 2) (zlen g - 2)); [|
      destruct (Z.eqb_spec (q - 2) (zlen g - 3))]]]; cbn [sat_cell].
    - replace (Z.min (Z.max (q - 2) 0) (zlen g - 4)) with 0%Z by lia. assert (Q' := Ez 0%Z ltac:(lia) ltac:(lia)). split; [lra|apply P3'; lia].
    - replace (Z.min (Z.max (q - 2) 0) (zlen g - 4)) with 0%Z by lia. split; [left; apply P1'; lia|apply P3'; lia].
    - replace (Z.min (Z.max (q - 2) 0) (zlen g - 4)) with (zlen g - 4)%Z by lia. assert (Q' := Ez (zlen g - 4 + 2)%Z ltac:(lia) ltac:(lia)).
      replace (zlen g - 4 + 2 + 1)%Z with (zlen g - 1)%Z in Q' by lia. replace (zlen g - 4 + 3)%Z with (zlen g - 1)%Z by lia.
      split; [left; apply P1'; lia|lra].
    - replace (Z.min (Z.max (q - 2) 0) (zlen g - 4)) with (q - 3)%Z by lia. split; [left; apply P1'; lia|apply P3'; lia].
    - replace (Z.min (Z.max (q - 2) 0) (zlen g - 4)) with (q - 2)%Z by lia. split; [left; apply P1'; lia|apply P3'; lia]. }
  assert (D0 := Ez (fst p) ltac:(lia) ltac:(lia)). assert (D1 := Ez (fst p + 1)%Z ltac:(lia) ltac:(lia)). assert (D2 := Ez (fst p + 2)%Z ltac:(lia) ltac:(lia)).
  replace (fst p + 1 + 1)%Z with (fst p + 2)%Z in D1 by lia. replace (fst p + 2 + 1)%Z with (fst p + 3)%Z in D2 by lia.
  destruct (rect_exact B G b m P2 Hb Hm HQ HP HT (vs (fst p)) (vs (fst p + 1)%Z) (vs (fst p + 2)%Z) (vs (fst p + 3)%Z) (Hv _) (Hv _) (Hv _) (Hv _)
    (gz o g (fst p)) (gz o g (fst p + 1)) (gz o g (fst p + 2)) (gz o g (fst p + 3)) x e (e - b) Hb') with (c := c) (fma := fma) (lin := lin) (sat := snd p) as (Ir & Wr & Br); auto.
  - repeat split; auto; apply Hz; lia.
  - repeat split; auto; apply Wz; lia.
  - lia.
  - intros u [-> | ->]; apply Df; auto; apply Hz; lia.
  - assert (R : rect_innerp ROps c fma lin (snd p) X [B2R (gz o g (fst p)); B2R (gz o g (fst p + 1)); B2R (gz o g (fst p + 2)); B2R (gz o g (fst p + 3))]
       [B2R (vs (fst p)); B2R (vs (fst p + 1)%Z); B2R (vs (fst p + 2)%Z); B2R (vs (fst p + 3)%Z)] = cub1 lin a X (fun i => B2R (vs i))).
    { rewrite <- (@cub_rect_axis c fma lin (map B2R g) X (fun i => B2R (vs i)) SI) by lia.
      rewrite <- (crect_cell_float prec emax Hp He g x Sg Fx). fold p.
      assert (Gz : forall i, gz ROps (map B2R g) i = B2R (gz o g i)) by (intros i; rewrite <- (coord_gz prec emax Hp He); reflexivity).
      unfold cell4. rewrite !Gz. reflexivity. }
    rewrite R in Ir, Wr, Br. rewrite <- bpow_plus in Br. split; [exact Ir|]. unfold r. unfold cell4. rewrite (proj2 Ir). split; [exact Wr|exact Br].
Qed.
End RectAxis.

(** ** All axes *)
Section Tens.
Variables (dims os : list Z) (Vh : list Z -> fl) (Ls : list ((Z -> R) -> R)) (nd : nat -> list fl -> fl) (a b g m : Z).
Notation N := (length dims).
Hypothesis Hb : (0 <= b)%Z.
Hypothesis Hm : (0 <= m)%Z.
Hypothesis HLs : lfs dims Ls.
Hypothesis HV : forall idx, fin (Vh idx) /\ whole (bpow radix2 g) (B2R (Vh idx)) /\ Rabs (B2R (Vh idx)) <= bpow radix2 (g + a).
Hypothesis Hnd : forall k vs B G, (k < N)%nat -> (emin <= G - 1 - 3 * b)%Z -> (B + (3 * m + 5) - (G - 1 - 3 * b) <= prec)%Z -> (B + (3 * m + 5) < emax)%Z ->
  (forall i, fin (vs i) /\ whole (bpow radix2 G) (B2R (vs i)) /\ Rabs (B2R (vs i)) <= bpow radix2 B) ->
  let z := nth k os 0%Z in let r := nd k [vs z; vs (z + 1)%Z; vs (z + 2)%Z; vs (z + 3)%Z] in
  is r (nth k Ls (fun _ => 0) (fun i => B2R (vs i))) /\ whole (bpow radix2 (G - 1 - 3 * b)) (B2R r) /\ Rabs (B2R r) <= bpow radix2 (3 * m + 5 + B).
Hypothesis Hfit : (a + Z.of_nat N * (3 * b + 3 * m + 6) <= prec)%Z.
Hypothesis Hlow : (emin <= g - Z.of_nat N * (3 * b + 1))%Z.
Hypothesis Hhigh : (g + a + Z.of_nat N * (3 * m + 5) < emax)%Z.

Lemma tens4_exact_any k suf : (k <= N)%nat -> let v := tens 4 Vh nd os k suf in
  is v (tenL (firstn k Ls) (fun idx => B2R (Vh (idx ++ suf)))) /\
  whole (bpow radix2 (g - Z.of_nat k * (3 * b + 1))) (B2R v) /\ Rabs (B2R v) <= bpow radix2 (g + a + Z.of_nat k * (3 * m + 5)).
Proof using All.
  assert (LL : length Ls = N) by (symmetry; apply (Forall2_len _ _ _ _ _ HLs)).
  revert suf. induction k as [|k IH]; intros suf Hk.
  { cbn [tens firstn tenL app]. destruct (HV suf) as (F & W & B). replace (g - Z.of_nat 0 * (3 * b + 1))%Z with g by lia.
    replace (g + a + Z.of_nat 0 * (3 * m + 5))%Z with (g + a)%Z by lia. auto. }
  assert (HLk : lfs (firstn k dims) (firstn k Ls)) by (apply Forall2_firstn; exact HLs).
  assert (HL : lf (nth k dims 0%Z) (nth k Ls (fun _ => 0))) by (apply (Forall2_nth_lt _ _ _ _ _ k 0%Z (fun _ => 0) HLs); lia).
  assert (E : firstn (S k) Ls = firstn k Ls ++ [nth k Ls (fun _ => 0)]).
  { clear - Hk LL. rewrite <- LL in Hk. clear LL. revert k Hk. induction Ls as [|L Ls' IH]; intros k Hk; simpl in *; [lia|].
    destruct k; auto. simpl. f_equal. apply IH. lia. }
  rewrite E, (tenL_snoc _ HLk HL). cbn [tens seq map].
  set (z := nth k os 0%Z).
  change (Z.of_nat 0) with 0%Z. change (Z.of_nat 1) with 1%Z. change (Z.of_nat 2) with 2%Z. change (Z.of_nat 3) with 3%Z. rewrite Z.add_0_r. cbv zeta.
  set (vs := fun i => tens 4 Vh nd os k (i :: suf)).
  assert (IV : forall i, is (vs i) (tenL (firstn k Ls) (fun idx => B2R (Vh (idx ++ i :: suf)))) /\
    whole (bpow radix2 (g - Z.of_nat k * (3 * b + 1))) (B2R (vs i)) /\ Rabs (B2R (vs i)) <= bpow radix2 (g + a + Z.of_nat k * (3 * m + 5))).
  { intros i. apply (IH (i :: suf)). lia. }
  clear IH.
  assert (KN : (0 <= Z.of_nat k * (3 * b + 1) <= Z.of_nat N * (3 * b + 1) - (3 * b + 1))%Z) by nia.
  assert (KM : (0 <= Z.of_nat k * (3 * m + 5) <= Z.of_nat N * (3 * m + 5) - (3 * m + 5))%Z) by nia.
  assert (KS : (Z.of_nat N * (3 * b + 3 * m + 6) = Z.of_nat N * (3 * b + 1) + Z.of_nat N * (3 * m + 5))%Z) by ring.
  set (G := (g - Z.of_nat k * (3 * b + 1))%Z) in *. set (B := (g + a + Z.of_nat k * (3 * m + 5))%Z) in *.
  destruct (Hnd k vs B G) as (Ir & Wr & Br); try (unfold B, G; lia).
  { intros i. destruct (IV i) as ((F & _) & W & Bd). auto. }
  fold z in Ir, Wr, Br. cbv zeta in Ir, Wr, Br.
  change (tens 4 Vh nd os k (z :: suf)) with (vs z). change (tens 4 Vh nd os k ((z + 1)%Z :: suf)) with (vs (z + 1)%Z).
  change (tens 4 Vh nd os k ((z + 2)%Z :: suf)) with (vs (z + 2)%Z). change (tens 4 Vh nd os k ((z + 3)%Z :: suf)) with (vs (z + 3)%Z).
  split; [|split].
  - eapply is_eq; [exact Ir|]. destruct HL as (_ & _ & Hext). apply Hext. intros i _. rewrite (proj2 (proj1 (IV i))).
    apply (tenL_ext _ _ HLk). intros idx _. rewrite <- app_assoc. reflexivity.
  - replace (g - Z.of_nat (S k) * (3 * b + 1))%Z with (G - 1 - 3 * b)%Z by (unfold G; lia). exact Wr.
  - replace (g + a + Z.of_nat (S k) * (3 * m + 5))%Z with (3 * m + 5 + B)%Z by (unfold B; lia). exact Br.
Qed.
End Tens.
End B.
