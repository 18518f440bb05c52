(** Floating-point multicubic interpolation without rounding. *)
From Coq Require Import Reals Lra Lia List Bool ZifyBool ZifyNat PeanoNat String.
From Flocq Require Import Core.Core IEEE754.BinarySingleNaN.
From Verif Require Import Base Ops RInst FInst ModelCore ModelLinear ModelCubic ModelPython Spec SpecOrder SpecReal SpecIEEE Interpolators SpecApprox SpecCubicError SpecPython SpecDetect SpecExact SpecCubicExact.
From Verif Require Import CoreLemmas TensorLemmas MethodLemmas SearchLemmas MethodChar GenLemmas GenProofs OrderLemmas OrderProofs R1D RTensor RChar REval RProofs FLemmas UtilProofs FProofs FProofs2 FError Approx1D FCubic FCubicReg FCubicRect FExact.
Import ListNotations.
Unset Implicit Arguments.
Open Scope string_scope.
Open Scope list_scope.
Open Scope R_scope.

Lemma whole_neg u r : whole u r -> whole u (- r).
Proof. intros (m & ->). exists (- m)%Z. rewrite opp_IZR. ring. Qed.
Lemma abs_unit t r M : 0 <= t <= 1 -> Rabs r <= M -> Rabs (t * r) <= M.
Proof.
  intros Ht Hr. rewrite Rabs_mult, (Rabs_pos_eq t) by lra. rewrite <- (Rmult_1_l M). apply Rmult_le_compat; try lra. apply Rabs_pos.
Qed.

Section B.
Variables prec emax : Z.
Context (Hp : Prec_gt_0 prec) (He : Prec_lt_emax prec emax).
Notation fl := (binary_float prec emax).
Notation o := (BOps Hp He).
Notation emin := (3 - emax - prec)%Z.
Notation fin x := (is_finite x = true).
Notation rnd := (rnd prec emax).
Notation is z v := (@is_finite prec emax z = true /\ @B2R prec emax z = v).

(** ** Operations without rounding *)
Lemma is_sub x y v w : is x v -> is y w -> rnd (v - w) = v - w -> Rabs (v - w) < bpow radix2 emax -> is (fsub o x y) (v - w).
Proof using Hp He.
  intros (Fx & <-) (Fy & <-) E L. destruct (sub_ok prec emax Hp He x y Fx Fy) as (F & V); [rewrite E; exact L|]. rewrite E in V. auto.
Qed.
Lemma is_add x y v w : is x v -> is y w -> rnd (v + w) = v + w -> Rabs (v + w) < bpow radix2 emax -> is (fadd o x y) (v + w).
Proof using Hp He.
  intros (Fx & <-) (Fy & <-) E L. destruct (add_ok prec emax Hp He x y Fx Fy) as (F & V); [rewrite E; exact L|]. rewrite E in V. auto.
Qed.
Lemma is_mul x y v w : is x v -> is y w -> rnd (v * w) = v * w -> Rabs (v * w) < bpow radix2 emax -> is (fmul o x y) (v * w).
Proof using Hp He.
  intros (Fx & <-) (Fy & <-) E L. destruct (mul_ok prec emax Hp He x y Fx Fy) as (F & V); [rewrite E; exact L|]. rewrite E in V. auto.
Qed.
Lemma is_div x y v w : is x v -> is y w -> w <> 0 -> rnd (v / w) = v / w -> Rabs (v / w) < bpow radix2 emax -> is (fdiv o x y) (v / w).
Proof using Hp He.
  intros (Fx & <-) (Fy & <-) N E L. destruct (div_ok prec emax Hp He x y Fx N) as (F & V); [rewrite E; exact L|]. rewrite E in V. auto.
Qed.
Lemma is_fma x y z v w t : is x v -> is y w -> is z t -> rnd (v * w + t) = v * w + t -> Rabs (v * w + t) < bpow radix2 emax -> is (fmuladd o x y z) (v * w + t).
Proof using Hp He.
  intros (Fx & <-) (Fy & <-) (Fz & <-) E L. destruct (fma_ok prec emax Hp He x y z Fx Fy Fz) as (F & V); [rewrite E; exact L|]. rewrite E in V. auto.
Qed.
Lemma is_neg x v : is x v -> is (fneg o x) (- v).
Proof using Hp He. intros (Fx & <-). cbn [fneg BOps]. rewrite is_finite_Bopp, B2R_Bopp. auto. Qed.
Lemma is_eq x v w : is x v -> v = w -> is x w.
Proof using. intros H <-. exact H. Qed.
Lemma is_one : is (fone o) 1.
Proof using Hp He. cbn [fone BOps]. split; [apply is_finite_Bone|apply Bone_correct]. Qed.

(** Small whole numbers of 2^-b. *)
Lemma unit_fits b r : (2 <= prec)%Z -> (0 <= b)%Z -> (b + 1 <= prec)%Z -> whole (bpow radix2 (- b)) r -> Rabs r <= 2 -> rnd r = r /\ Rabs r < bpow radix2 emax.
Proof using Hp He.
  intros P2 Hb Hb' W B. unfold Prec_lt_emax in He. split.
  - apply (whole_exact prec emax Hp He (- b) 1); [exact W|exact B|lia|lia].
  - eapply Rle_lt_trans; [exact B|]. change 2 with (bpow radix2 1). apply bpow_lt. lia.
Qed.
Lemma is_two : (2 <= prec)%Z -> is (fadd o (fone o) (fone o)) 2.
Proof using Hp He.
  intros P2. assert (W : whole (bpow radix2 (- 0)) 2) by (exists 2%Z; simpl; ring).
  destruct (unit_fits 0 2 P2 ltac:(lia) ltac:(lia) W ltac:(rewrite Rabs_pos_eq; lra)) as (E & L).
  apply (is_eq _ (1 + 1)); [|ring]. replace 2 with (1 + 1) in E, L by ring. apply is_add; auto using is_one.
Qed.

(** ** One cubic step *)
Section Cell.
Variables B G b : Z.
Notation M := (bpow radix2 B).
Hypothesis P2 : (2 <= prec)%Z.
Hypothesis Hb : (0 <= b)%Z.
Hypothesis HQ : (emin <= G - 1 - 3 * b)%Z.
Hypothesis HP : (B + 4 - (G - 1 - 3 * b) <= prec)%Z.
Hypothesis HT : (B + 4 < emax)%Z.
Notation W k r := (whole (bpow radix2 (G - 1 - k * b)) r).

Lemma fits k r : (0 <= k <= 3)%Z -> W k r -> Rabs r <= 16 * M -> rnd r = r /\ Rabs r < bpow radix2 emax.
Proof using All.
  intros Hk Hw Hr. assert (E4 : bpow radix2 (B + 4) = 16 * M) by (rewrite Z.add_comm, bpow_plus; reflexivity). rewrite <- E4 in Hr.
  split; [apply (whole_exact prec emax Hp He (G - 1 - k * b) (B + 4)); auto; nia|].
  eapply Rle_lt_trans; [exact Hr|apply bpow_lt; exact HT].
Qed.
Lemma W_up k k' r : (k <= k')%Z -> W k r -> W k' r.
Proof using Hb. intros H. apply whole_finer. nia. Qed.
Lemma W_mul k t r : whole (bpow radix2 (- b)) t -> W k r -> W (k + 1) (t * r).
Proof using. intros Ht Hr. replace (G - 1 - (k + 1) * b)%Z with (- b + (G - 1 - k * b))%Z by lia. rewrite bpow_plus. apply whole_mul; auto. Qed.
Lemma W_half r : whole (bpow radix2 G) r -> W 0 (r / 2).
Proof using.
  intros (n & ->). exists n. replace (G - 1 - 0 * b)%Z with (G + - (1))%Z by lia. rewrite bpow_plus. change (bpow radix2 (- (1))) with (/ 2). field.
Qed.
Lemma W_whole r : whole (bpow radix2 G) r -> W 0 r.
Proof using. apply whole_finer. lia. Qed.


Definition ex (k : Z) (m : R) (z : fl) (v : R) : Prop := is z v /\ W k v /\ Rabs v <= m * M.
Lemma M_pos : 0 < M. Proof using. apply bpow_gt_0. Qed.
Lemma ex_sub k m n p x y v w : ex k m x v -> ex k n y w -> (0 <= k <= 3)%Z -> Rabs (v - w) <= p * M -> p <= 16 -> ex k p (fsub o x y) (v - w).
Proof using All.
  intros (X & Wx & _) (Y & Wy & _) Hk Hv H16. assert (M0 := M_pos). assert (W' := whole_sub _ _ _ Wx Wy).
  assert (Q : Rabs (v - w) <= 16 * M) by (eapply Rle_trans; [exact Hv|apply Rmult_le_compat_r; lra]).
  destruct (fits k _ Hk W' Q) as (E & L). split; [apply is_sub; auto|auto].
Qed.
Lemma ex_add k m n p x y v w : ex k m x v -> ex k n y w -> (0 <= k <= 3)%Z -> Rabs (v + w) <= p * M -> p <= 16 -> ex k p (fadd o x y) (v + w).
Proof using All.
  intros (X & Wx & _) (Y & Wy & _) Hk Hv H16. assert (M0 := M_pos). assert (W' := whole_add _ _ _ Wx Wy).
  assert (Q : Rabs (v + w) <= 16 * M) by (eapply Rle_trans; [exact Hv|apply Rmult_le_compat_r; lra]).
  destruct (fits k _ Hk W' Q) as (E & L). split; [apply is_add; auto|auto].
Qed.
Lemma ex_neg k m x v : ex k m x v -> ex k m (fneg o x) (- v).
Proof using Hp He. intros (X & Wx & B'). split; [apply is_neg; auto|]. split; [apply whole_neg; auto|rewrite Rabs_Ropp; auto]. Qed.
Lemma ex_up k k' m x v : (k <= k')%Z -> ex k m x v -> ex k' m x v.
Proof using Hb. intros H (X & Wx & B'). split; [auto|]. split; [eapply W_up; eauto|auto]. Qed.
Lemma ex_eq k m x v w : ex k m x v -> v = w -> ex k m x w.
Proof using. intros H <-. exact H. Qed.
Definition frac (th : fl) (t : R) : Prop := is th t /\ whole (bpow radix2 (- b)) t /\ 0 <= t <= 1.
Lemma ex_tmul k m th t y w : frac th t -> ex k m y w -> (0 <= k < 3)%Z -> m <= 16 -> ex (k + 1) m (fmul o th y) (t * w).
Proof using All.
  intros (T & Wt & Rt) (Y & Wy & B') Hk H16. assert (M0 := M_pos). assert (W' := W_mul k _ _ Wt Wy). assert (Bt := abs_unit _ _ _ Rt B').
  assert (Q : Rabs (t * w) <= 16 * M) by (eapply Rle_trans; [exact Bt|apply Rmult_le_compat_r; lra]).
  destruct (fits (k + 1) _ ltac:(lia) W' Q) as (E & L). split; [apply is_mul; auto|auto].
Qed.
Lemma ex_tfma k m n p th t y w z v : frac th t -> ex k m y w -> ex (k + 1) n z v -> (0 <= k < 3)%Z -> Rabs (v + t * w) <= p * M -> p <= 16 ->
  ex (k + 1) p (fmuladd o y th z) (v + t * w).
Proof using All.
  intros (T & Wt & Rt) (Y & Wy & _) (Z' & Wz & _) Hk Hv H16. assert (M0 := M_pos).
  assert (W' := whole_add _ _ _ Wz (W_mul k _ _ Wt Wy)).
  assert (Q : Rabs (v + t * w) <= 16 * M) by (eapply Rle_trans; [exact Hv|apply Rmult_le_compat_r; lra]).
  destruct (fits (k + 1) _ ltac:(lia) W' Q) as (E & L). replace (v + t * w) with (w * t + v) in * by ring. split; [apply is_fma; auto|auto].
Qed.

Ltac bounds := repeat match goal with H : Rabs _ <= _ |- _ => apply Rabs_le_inv in H end; apply Rabs_le; lra.
(** The Hermite polynomial. *)
Lemma hermite_exact c th t y0 v dy d k0 m0 k1 m1 : frac th t -> ex 0 1 y0 v -> ex 0 2 dy d -> ex 0 1 k0 m0 -> ex 0 5 k1 m1 -> Rabs (m1 - d) <= 3 * M ->
  ex 3 16 (hermite o c th y0 dy k0 k1) (hermite ROps c t v d m0 m1).
Proof using All.
  intros T Y D K0 K1 Hd. assert (M0 := M_pos).
  assert (BY := proj2 (proj2 Y)). assert (BD := proj2 (proj2 D)). assert (BK0 := proj2 (proj2 K0)).
  assert (Rt := proj2 (proj2 T)).
  assert (EA : ex 0 3 (fsub o k0 dy) (m0 - d)) by (eapply ex_sub; eauto; try lia; try lra; bounds).
  assert (EB : ex 0 3 (fadd o (fneg o k1) dy) (- m1 + d)).
  { eapply ex_add; [apply ex_neg; exact K1|exact D|lia| |lra]. bounds. }
  set (a := fsub o k0 dy) in *. set (b' := fadd o (fneg o k1) dy) in *. set (A := m0 - d) in *. set (B' := - m1 + d) in *.
  assert (BA := proj2 (proj2 EA)). assert (BB := proj2 (proj2 EB)).
  assert (E1 : ex 0 1 (fadd o dy a) (d + A)).
  { eapply ex_add; [exact D|exact EA|lia| |lra]. unfold A. replace (d + (m0 - d)) with m0 by ring. exact BK0. }
  assert (BC : Rabs (d + A) <= M) by (replace (d + A) with m0 by (unfold A; ring); lra).
  assert (E2' : ex 0 6 (fadd o a a) (A + A)) by (eapply ex_add; eauto; try lia; try lra; bounds).
  assert (E2 : ex 0 9 (fsub o b' (fadd o a a)) (B' - (A + A))) by (eapply ex_sub; [exact EB|exact E2'|lia|bounds|lra]).
  assert (E3 : ex 0 6 (fsub o a b') (A - B')) by (eapply ex_sub; eauto; try lia; try lra; bounds).
  set (c1 := fadd o dy a) in *. set (c2 := fsub o b' (fadd o a a)) in *. set (c3 := fsub o a b') in *.
  assert (B2 : Rabs (B' - (A + A) + t * (A - B')) <= 9 * M).
  { replace (B' - (A + A) + t * (A - B')) with ((1 - t) * B' - A - (1 - t) * A) by ring.
    assert (X1 := abs_unit (1 - t) B' _ ltac:(lra) BB). assert (X2 := abs_unit (1 - t) A _ ltac:(lra) BA). bounds. }
  set (p2 := B' - (A + A) + t * (A - B')) in *.
  assert (B1 : Rabs (d + A + t * p2) <= 10 * M) by (assert (X1 := abs_unit t p2 _ Rt B2); bounds).
  set (p1 := d + A + t * p2) in *.
  assert (BF : Rabs (v + t * p1) <= 16 * M) by (assert (X1 := abs_unit t p1 _ Rt B1); bounds).
  assert (RV : hermite ROps c t v d m0 m1 = v + t * p1).
  { unfold hermite, p1, p2, A, B'. cbn. destruct (use_fma c); ring. }
  rewrite RV. unfold hermite. fold a b'. fold c1 c2 c3. cbv zeta. destruct (use_fma c).
  - assert (F2 : ex 1 9 (fmuladd o c3 th c2) p2) by (eapply (ex_tfma 0); [exact T|exact E3|apply (ex_up 0); [lia|exact E2]|lia|exact B2|lra]).
    assert (F1 : ex 2 10 (fmuladd o (fmuladd o c3 th c2) th c1) p1) by (eapply (ex_tfma 1); [exact T|exact F2|apply (ex_up 0); [lia|exact E1]|lia|exact B1|lra]).
    eapply (ex_tfma 2); [exact T|exact F1|apply (ex_up 0); [lia|exact Y]|lia|exact BF|lra].
  - assert (F2 : ex 1 9 (fadd o c2 (fmul o th c3)) p2).
    { eapply ex_add; [apply (ex_up 0); [lia|exact E2]|apply (ex_tmul 0 6); [exact T|exact E3|lia|lra]|lia|exact B2|lra]. }
    assert (F1 : ex 2 10 (fadd o c1 (fmul o th (fadd o c2 (fmul o th c3)))) p1).
    { eapply ex_add; [apply (ex_up 0); [lia|exact E1]|apply (ex_tmul 1 9); [exact T|exact F2|lia|lra]|lia|exact B1|lra]. }
    eapply ex_add; [apply (ex_up 0); [lia|exact Y]|apply (ex_tmul 2 10); [exact T|exact F1|lia|lra]|lia|exact BF|lra].
Qed.
Lemma natural_exact fma dy d k0 m0 : ex 0 2 dy d -> ex 0 1 k0 m0 -> ex 0 5 (natural_k1 o fma dy k0) (2 * d - m0).
Proof using All.
  intros D K. assert (M0 := M_pos). assert (BD := proj2 (proj2 D)). assert (BK := proj2 (proj2 K)).
  assert (W2 : W 0 (2 * d)).
  { replace (2 * d) with (d + d) by ring. apply whole_add; apply D. }
  assert (B2 : Rabs (2 * d) <= 16 * M) by bounds. destruct (fits 0 _ ltac:(lia) W2 B2) as (E & L).
  assert (I2 := is_two P2). unfold natural_k1. cbv zeta. destruct fma.
  - assert (W3 := whole_sub _ _ _ W2 (proj1 (proj2 K))). assert (B3 : Rabs (2 * d - m0) <= 5 * M) by bounds.
    destruct (fits 0 _ ltac:(lia) W3 ltac:(bounds)) as (E' & L'). split; [|split; [exact W3|exact B3]].
    change (2 * d - m0) with (2 * d + - m0) in *. apply is_fma; auto; [apply D|apply is_neg; apply K].
  - assert (X : ex 0 4 (fmul o (fadd o (fone o) (fone o)) dy) (2 * d)).
    { split; [apply is_mul; auto; apply D|]. split; [exact W2|bounds]. }
    eapply ex_sub; [exact X|exact K|lia|bounds|lra].
Qed.
(** The linear continuation is only used at the node itself. *)
Lemma linear_exact fma th y v k m : is th 1 -> ex 0 1 y v -> ex 0 5 k m -> ex 3 16 (linear_ext o fma y k th) v.
Proof using All.
  intros T Y K. assert (M0 := M_pos). assert (I1 := is_one). assert (BY := proj2 (proj2 Y)).
  assert (W0 : whole (bpow radix2 (- 0)) 0) by apply whole_0.
  destruct (unit_fits 0 0 P2 ltac:(lia) ltac:(lia) W0 ltac:(rewrite Rabs_R0; lra)) as (E0 & L0).
  assert (Z0 : is (fsub o th (fone o)) 0).
  { apply (is_eq _ (1 - 1)); [|ring]. apply is_sub; auto; replace (1 - 1) with 0 by ring; auto. }
  assert (WY : W 3 v) by (apply (W_up 0); [lia|apply Y]). assert (B16 : Rabs v <= 16 * M) by bounds.
  destruct (fits 3 v ltac:(lia) WY B16) as (E & L).
  split; [|split; [exact WY|exact B16]]. unfold linear_ext. destruct fma.
  - apply (is_eq _ (m * 0 + v)); [|ring]. apply is_fma; try (replace (m * 0 + v) with v by ring); auto; [apply K|apply Y].
  - assert (Zm : is (fmul o k (fsub o th (fone o))) (m * 0)) by (apply is_mul; try (replace (m * 0) with 0 by ring); auto; apply K).
    apply (is_eq _ (v + m * 0)); [|ring]. apply is_add; try (replace (v + m * 0) with v by ring); auto; apply Y.
Qed.

(** *** Regular grids *)
Notation val v := (fin v /\ whole (bpow radix2 G) (B2R v) /\ Rabs (B2R v) <= M).

Lemma ex_val v : val v -> ex 0 1 v (B2R v).
Proof using. intros (F & Hw & Hm). split; [auto|]. split; [apply W_whole; auto|lra]. Qed.
Lemma ex_diff v w : val v -> val w -> ex 0 2 (fsub o v w) (B2R v - B2R w).
Proof using P2 Hb HQ HP HT Hp He.
  intros X Y. eapply ex_sub; [apply ex_val; exact X|apply ex_val; exact Y|lia| |lra]. destruct X as (_ & _ & X), Y as (_ & _ & Y). bounds.
Qed.
Lemma half_exact x r : is x r -> whole (bpow radix2 G) r -> Rabs r <= 2 * M -> ex 0 1 (fdiv o x (fadd o (fone o) (fone o))) (r / 2).
Proof using P2 Hb HQ HP HT Hp He.
  intros X Hw Hr. assert (M0 := M_pos). assert (W' := W_half _ Hw). assert (B1 : Rabs (r / 2) <= 1 * M) by bounds.
  destruct (fits 0 _ ltac:(lia) W' ltac:(bounds)) as (E & L). split; [|auto]. apply is_div; auto; apply is_two; exact P2.
Qed.
Lemma half_diff v w : val v -> val w -> ex 0 1 (fdiv o (fsub o v w) (fadd o (fone o) (fone o))) ((B2R v - B2R w) / 2).
Proof using P2 Hb HQ HP HT Hp He.
  intros X Y. apply half_exact; [apply (ex_diff v w X Y)|apply whole_sub; [apply X|apply Y]|apply (ex_diff v w X Y)].
Qed.
Lemma nhalf_diff v w : val v -> val w -> ex 0 1 (fdiv o (fneg o (fsub o v w)) (fadd o (fone o) (fone o))) (- (B2R v - B2R w) / 2).
Proof using P2 Hb HQ HP HT Hp He.
  intros X Y. apply half_exact; [apply is_neg, (ex_diff v w X Y)|apply whole_neg, whole_sub; [apply X|apply Y]|].
  rewrite Rabs_Ropp. apply (ex_diff v w X Y).
Qed.

Definition sat_frac (sat : saturation) (t : R) : Prop :=
  match sat with
  | SatNone => 0 <= t <= 1
  | InsideLow => -1 <= t <= 0
  | OutsideLow => t = -1
  | InsideHigh => 1 <= t <= 2
  | OutsideHigh => t = 2
  end.
Lemma frac_neg th t : is th t -> whole (bpow radix2 (- b)) t -> -1 <= t <= 0 -> frac (fneg o th) (- t).
Proof using Hp He. intros T Hw R. split; [apply is_neg; auto|]. split; [apply whole_neg; auto|lra]. Qed.
Lemma frac_sub th t : (b + 1 <= prec)%Z -> is th t -> whole (bpow radix2 (- b)) t -> 1 <= t <= 2 -> frac (fsub o th (fone o)) (t - 1).
Proof using P2 Hb Hp He.
  intros Hb' T Hw R. assert (W' : whole (bpow radix2 (- b)) (t - 1)).
  { apply whole_sub; auto. apply (whole_finer _ 0); [lia|]. apply whole_IZR. }
  destruct (unit_fits b (t - 1) P2 Hb Hb' W' ltac:(apply Rabs_le; lra)) as (E & L).
  split; [apply is_sub; auto using is_one|]. split; [exact W'|lra].
Qed.

(** Slopes and positions on an evenly spaced rectilinear grid. *)
Lemma half_ratio p q : is p 1 -> is q 1 -> is (fdiv o p (fadd o p q)) (/ 2).
Proof using P2 Hp He.
  intros Hp1 Hq1. assert (I2 : is (fadd o p q) 2).
  { assert (W2 : whole (bpow radix2 (- 0)) 2) by (exists 2%Z; simpl; ring).
    destruct (unit_fits 0 2 P2 ltac:(lia) ltac:(lia) W2 ltac:(rewrite Rabs_pos_eq; lra)) as (E & L).
    apply (is_eq _ (1 + 1)); [|ring]. replace 2 with (1 + 1) in E, L by ring. apply is_add; auto. }
  assert (W1 : whole (bpow radix2 (- (1))) (1 / 2)) by (exists 1%Z; change (bpow radix2 (- (1))) with (/ 2); field).
  destruct (unit_fits 1 (1 / 2) P2 ltac:(lia) ltac:(lia) W1 ltac:(rewrite Rabs_pos_eq; lra)) as (E & L).
  apply (is_eq _ (1 / 2)); [|field]. apply is_div; auto; lra.
Qed.
Lemma over_one p x v : is p 1 -> ex 0 2 x v -> ex 0 2 (fdiv o x p) v.
Proof using P2 Hb HQ HP HT Hp He.
  intros Hp1 (X & Hw & Hm). assert (M0 := M_pos). destruct (fits 0 v ltac:(lia) Hw ltac:(bounds)) as (E & L).
  split; [|auto]. apply (is_eq _ (v / 1)); [|field]. assert (Q : v / 1 = v) by field. apply is_div; auto; rewrite ?Q; auto; lra.
Qed.
Lemma cdiff_exact c y0 y1 y2 p q : val y0 -> val y1 -> val y2 -> is p 1 -> is q 1 ->
  ex 0 1 (centered_diff o c y0 y1 y2 p q) ((B2R y2 - B2R y0) / 2).
Proof using P2 Hb HQ HP HT Hp He.
  intros Y0 Y1 Y2 Ip Iq. assert (M0 := M_pos).
  assert (B0 := proj2 (proj2 Y0)). assert (B1 := proj2 (proj2 Y1)). assert (B2 := proj2 (proj2 Y2)).
  assert (I1 := half_ratio p q Ip Iq). assert (I2 := half_ratio q p Iq Ip).
  assert (D1 := over_one q _ _ Iq (ex_diff y2 y1 Y2 Y1)). assert (D2 := over_one p _ _ Ip (ex_diff y1 y0 Y1 Y0)).
  assert (Hf : forall x v, ex 0 2 x v -> whole (bpow radix2 G) v -> forall r, is r (/ 2) -> ex 0 1 (fmul o r x) (/ 2 * v)).
  { intros x v (X & _ & Hm) Hw r Ir. assert (W' := W_half _ Hw). replace (v / 2) with (/ 2 * v) in W' by field.
    assert (Q : Rabs (/ 2 * v) <= 1 * M) by bounds. destruct (fits 0 _ ltac:(lia) W' ltac:(bounds)) as (E & L).
    split; [apply is_mul; auto|auto]. }
  assert (E2 := Hf _ _ D2 (whole_sub _ _ _ (proj1 (proj2 Y1)) (proj1 (proj2 Y0))) _ I2).
  assert (E1 := Hf _ _ D1 (whole_sub _ _ _ (proj1 (proj2 Y2)) (proj1 (proj2 Y1))) _ I1).
  assert (S : / 2 * (B2R y2 - B2R y1) + / 2 * (B2R y1 - B2R y0) = (B2R y2 - B2R y0) / 2) by field.
  assert (BS : Rabs ((B2R y2 - B2R y0) / 2) <= 1 * M) by bounds.
  assert (WS : W 0 ((B2R y2 - B2R y0) / 2)) by (apply W_half; apply whole_sub; [apply Y2|apply Y0]).
  unfold centered_diff. cbv zeta. destruct (use_fma c).
  - destruct (fits 0 _ ltac:(lia) WS ltac:(bounds)) as (E & L). split; [|auto]. rewrite <- S in *. apply is_fma; auto; [apply D1|apply E2].
  - rewrite <- S in *. eapply ex_add; [exact E1|exact E2|lia|exact BS|lra].
Qed.

Lemma is_gap e q u v : (b + 1 <= prec)%Z -> (emin <= q)%Z -> (e <= q + b)%Z -> (e < emax)%Z -> fin u -> fin v -> whole (bpow radix2 q) (B2R u) -> whole (bpow radix2 q) (B2R v) -> Rabs (B2R v - B2R u) <= bpow radix2 e ->
  is (fsub o v u) (B2R v - B2R u).
Proof using Hp He.
  intros Hb' Lq Le Lm Fu Fv Wu Wv Hd. assert (LT : bpow radix2 e < bpow radix2 emax) by (apply bpow_lt; exact Lm).
  apply is_sub; auto; [|lra].
  eapply (whole_exact prec emax Hp He q e); [apply whole_sub; auto|exact Hd|exact Lq|lia].
Qed.
Lemma is_ratio e u v : is u (bpow radix2 e) -> is v (bpow radix2 e) -> is (fdiv o u v) 1.
Proof using P2 Hp He.
  intros U V. assert (B0 := bpow_gt_0 radix2 e). assert (Q : bpow radix2 e / bpow radix2 e = 1) by (field; lra).
  assert (W1 : whole (bpow radix2 (- 0)) 1) by (exists 1%Z; simpl; ring).
  destruct (unit_fits 0 1 P2 ltac:(lia) ltac:(lia) W1 ltac:(rewrite Rabs_pos_eq; lra)) as (E & L).
  apply (is_eq _ (bpow radix2 e / bpow radix2 e)); [|exact Q]. apply is_div; auto; rewrite ?Q; auto; lra.
Qed.
Lemma frac_div e q n d' r : (b + 1 <= prec)%Z -> (e <= q + b)%Z -> is n r -> is d' (bpow radix2 e) -> whole (bpow radix2 q) r -> 0 <= r <= bpow radix2 e -> frac (fdiv o n d') (r / bpow radix2 e).
Proof using P2 Hb Hp He.
  intros Hb' Le N D Hw R. assert (B0 := bpow_gt_0 radix2 e).
  assert (R01 : 0 <= r / bpow radix2 e <= 1).
  { split; [apply Rmult_le_pos; [lra|left; apply Rinv_0_lt_compat; lra]|].
    apply Rmult_le_reg_r with (bpow radix2 e); [lra|]. unfold Rdiv. rewrite Rmult_assoc, Rinv_l by lra. lra. }
  assert (Wt : whole (bpow radix2 (- b)) (r / bpow radix2 e)).
  { apply (whole_finer _ (q - e)); [lia|]. destruct Hw as (n' & ->). exists n'.
    replace (q - e)%Z with (q + - e)%Z by lia. rewrite bpow_plus, bpow_opp. unfold Rdiv. ring. }
  destruct (unit_fits b _ P2 Hb Hb' Wt ltac:(rewrite Rabs_pos_eq; lra)) as (E & L).
  split; [apply is_div; auto; lra|]. split; [exact Wt|exact R01].
Qed.

Variables (v0 v1 v2 v3 : fl).
Hypothesis V0 : val v0. Hypothesis V1 : val v1. Hypothesis V2 : val v2. Hypothesis V3 : val v3.
Lemma reg_exact c fo lin sat th t : (b + 1 <= prec)%Z -> is th t -> whole (bpow radix2 (- b)) t -> sat_frac sat t ->
  ex 3 16 (reg_innerp o c fo lin sat th [v0; v1; v2; v3]) (reg_innerp ROps c fo lin sat t [B2R v0; B2R v1; B2R v2; B2R v3]).
Proof using All.
  intros Hb' T Wt St. assert (M0 := M_pos).
  assert (B0 := proj2 (proj2 V0)). assert (B1 := proj2 (proj2 V1)). assert (B2 := proj2 (proj2 V2)). assert (B3 := proj2 (proj2 V3)).
  destruct sat; cbn [sat_frac] in St; unfold reg_innerp; cbn [reg_inner].
  - eapply ex_eq.
    + apply (hermite_exact c th t); [split; auto|apply ex_val; exact V1|apply ex_diff; eauto|apply half_diff; eauto| |].
      * destruct (half_diff v3 v1 V3 V1) as (X1 & X2 & X3). split; [exact X1|split; [exact X2|bounds]].
      * bounds.
    + unfold hermite. cbn. destruct (use_fma c); field.
  - assert (F := frac_neg th t T Wt St). assert (D := ex_diff v0 v1 V0 V1). assert (K := nhalf_diff v2 v0 V2 V0).
    eapply ex_eq.
    + apply (hermite_exact c _ _ _ _ _ _ _ _ _ _ F (ex_val v1 V1) D K (natural_exact (use_fma c) _ _ _ _ D K)). bounds.
    + unfold hermite, natural_k1. cbn. destruct (use_fma c); field.
  - assert (F := frac_neg th t T Wt ltac:(lra)). assert (D := ex_diff v0 v1 V0 V1). assert (K := nhalf_diff v2 v0 V2 V0).
    assert (N := natural_exact fo _ _ _ _ D K). destruct lin.
    + eapply ex_eq.
      * apply (linear_exact (use_fma c) _ _ _ _ _ ltac:(eapply is_eq; [apply F|lra]) (ex_val v0 V0) N).
      * unfold linear_ext, natural_k1. cbn. rewrite St. destruct (use_fma c), fo; field.
    + eapply ex_eq.
      * apply (hermite_exact c _ _ _ _ _ _ _ _ _ _ F (ex_val v1 V1) D K N). bounds.
      * unfold hermite, natural_k1. cbn. destruct (use_fma c), fo; field.
  - assert (F := frac_sub th t Hb' T Wt St). assert (D := ex_diff v3 v2 V3 V2). assert (K := half_diff v3 v1 V3 V1).
    eapply ex_eq.
    + apply (hermite_exact c _ _ _ _ _ _ _ _ _ _ F (ex_val v2 V2) D K (natural_exact (use_fma c) _ _ _ _ D K)). bounds.
    + unfold hermite, natural_k1. cbn. destruct (use_fma c); field.
  - assert (F := frac_sub th t Hb' T Wt ltac:(lra)). assert (D := ex_diff v3 v2 V3 V2). assert (K := half_diff v3 v1 V3 V1).
    assert (N := natural_exact (use_fma c) _ _ _ _ D K). destruct lin.
    + eapply ex_eq.
      * apply (linear_exact (use_fma c) _ _ _ _ _ ltac:(eapply is_eq; [apply F|lra]) (ex_val v3 V3) N).
      * unfold linear_ext, natural_k1. cbn. rewrite St. destruct (use_fma c); field.
    + eapply ex_eq.
      * apply (hermite_exact c _ _ _ _ _ _ _ _ _ _ F (ex_val v2 V2) D K N). bounds.
      * unfold hermite, natural_k1. cbn. destruct (use_fma c); field.
Qed.

(** *** Evenly spaced rectilinear grids *)
Variables (g0 g1 g2 g3 x : fl) (e q : Z).
Hypothesis Hb' : (b + 1 <= prec)%Z.
Hypothesis Fg : fin g0 /\ fin g1 /\ fin g2 /\ fin g3 /\ fin x.
Hypothesis Wg : whole (bpow radix2 q) (B2R g0) /\ whole (bpow radix2 q) (B2R g1) /\ whole (bpow radix2 q) (B2R g2) /\ whole (bpow radix2 q) (B2R g3) /\ whole (bpow radix2 q) (B2R x).
Hypothesis E01 : B2R g1 - B2R g0 = bpow radix2 e.
Hypothesis E12 : B2R g2 - B2R g1 = bpow radix2 e.
Hypothesis E23 : B2R g3 - B2R g2 = bpow radix2 e.
Hypothesis Lq : (emin <= q)%Z.
Hypothesis Le : (e <= q + b)%Z.
Hypothesis Lm : (e < emax)%Z.

Definition sat_cell (sat : saturation) : Prop :=
  match sat with
  | SatNone => B2R g1 <= B2R x <= B2R g2
  | InsideLow => B2R g0 <= B2R x <= B2R g1
  | OutsideLow => B2R x = B2R g0
  | InsideHigh => B2R g2 <= B2R x <= B2R g3
  | OutsideHigh => B2R x = B2R g3
  end.
Lemma rect_exact c fma lin sat : sat_cell sat ->
  ex 3 16 (rect_innerp o c fma lin sat x [g0; g1; g2; g3] [v0; v1; v2; v3])
          (rect_innerp ROps c fma lin sat (B2R x) [B2R g0; B2R g1; B2R g2; B2R g3] [B2R v0; B2R v1; B2R v2; B2R v3]).
Proof using All.
  intros St. assert (M0 := M_pos). assert (B0 := bpow_gt_0 radix2 e).
  destruct Fg as (G0 & G1 & G2 & G3 & Fx). destruct Wg as (W0 & W1 & W2 & W3 & Wx).
  assert (C0 := proj2 (proj2 V0)). assert (C1 := proj2 (proj2 V1)). assert (C2 := proj2 (proj2 V2)). assert (C3 := proj2 (proj2 V3)).
  assert (I1 := is_one).
  assert (H01 : is (fsub o g1 g0) (bpow radix2 e)) by (rewrite <- E01; apply (is_gap e q); auto; rewrite E01, Rabs_pos_eq; lra).
  assert (H12 : is (fsub o g2 g1) (bpow radix2 e)) by (rewrite <- E12; apply (is_gap e q); auto; rewrite E12, Rabs_pos_eq; lra).
  assert (H23 : is (fsub o g3 g2) (bpow radix2 e)) by (rewrite <- E23; apply (is_gap e q); auto; rewrite E23, Rabs_pos_eq; lra).
  assert (R01 := is_ratio e _ _ H01 H12). assert (R10 := is_ratio e _ _ H12 H01).
  assert (R12 := is_ratio e _ _ H12 H23). assert (R21 := is_ratio e _ _ H23 H12).
  assert (Up : forall u d', fin u -> whole (bpow radix2 q) (B2R u) -> is d' (bpow radix2 e) -> B2R u <= B2R x <= B2R u + bpow radix2 e ->
    frac (fdiv o (fsub o x u) d') ((B2R x - B2R u) / bpow radix2 e)).
  { intros u d' Fu Wu D R. apply (frac_div e q); auto; [apply (is_gap e q); auto; rewrite Rabs_pos_eq; lra|apply whole_sub; auto|lra]. }
  assert (Dn : forall u d', fin u -> whole (bpow radix2 q) (B2R u) -> is d' (bpow radix2 e) -> B2R u - bpow radix2 e <= B2R x <= B2R u ->
    frac (fdiv o (fneg o (fsub o x u)) d') (- (B2R x - B2R u) / bpow radix2 e)).
  { intros u d' Fu Wu D R. apply (frac_div e q); auto; [apply is_neg, (is_gap e q); auto; apply Rabs_le; lra|apply whole_neg, whole_sub; auto|lra]. }
  destruct sat; cbn [sat_cell] in St; unfold rect_innerp; cbn [rect_inner].
  - assert (F := Up g1 _ G1 W1 H12 ltac:(lra)). assert (D := ex_diff v2 v1 V2 V1).
    assert (K0 := cdiff_exact c v0 v1 v2 _ _ V0 V1 V2 R01 I1). destruct (cdiff_exact c v1 v2 v3 _ _ V1 V2 V3 I1 R21) as (X1 & X2 & X3).
    eapply ex_eq.
    + eapply (hermite_exact c _ _ _ _ _ _ _ _ _ _ F (ex_val v1 V1) D K0); [split; [exact X1|split; [exact X2|bounds]]|bounds].
    + unfold hermite, centered_diff. cbn. rewrite E01, E12, E23. destruct (use_fma c); field; lra.
  - assert (F := Dn g1 _ G1 W1 H01 ltac:(lra)). assert (D := ex_diff v0 v1 V0 V1).
    assert (K := ex_neg _ _ _ _ (cdiff_exact c v0 v1 v2 _ _ V0 V1 V2 I1 R10)).
    eapply ex_eq.
    + apply (hermite_exact c _ _ _ _ _ _ _ _ _ _ F (ex_val v1 V1) D K (natural_exact fma _ _ _ _ D K)). bounds.
    + unfold hermite, natural_k1, centered_diff. cbn. rewrite E01, E12. destruct (use_fma c), fma; field; lra.
  - assert (F := Dn g1 _ G1 W1 H01 ltac:(lra)). assert (D := ex_diff v0 v1 V0 V1).
    assert (K := ex_neg _ _ _ _ (cdiff_exact c v0 v1 v2 _ _ V0 V1 V2 I1 R10)).
    assert (N := natural_exact false _ _ _ _ D K). destruct lin.
    + assert (T1 : - (B2R x - B2R g1) / bpow radix2 e = 1) by (rewrite St, <- E01; field; lra).
      eapply ex_eq.
      * apply (linear_exact fma _ _ _ _ _ ltac:(eapply is_eq; [apply F|exact T1]) (ex_val v0 V0) N).
      * unfold linear_ext, natural_k1, centered_diff. cbn. rewrite E01, E12, T1. destruct fma; ring.
    + eapply ex_eq.
      * apply (hermite_exact c _ _ _ _ _ _ _ _ _ _ F (ex_val v1 V1) D K N). bounds.
      * unfold hermite, natural_k1, centered_diff. cbn. rewrite E01, E12. destruct (use_fma c); field; lra.
  - assert (F := Up g2 _ G2 W2 H23 ltac:(lra)). assert (D := ex_diff v3 v2 V3 V2).
    assert (K := cdiff_exact c v1 v2 v3 _ _ V1 V2 V3 R12 I1).
    eapply ex_eq.
    + apply (hermite_exact c _ _ _ _ _ _ _ _ _ _ F (ex_val v2 V2) D K (natural_exact fma _ _ _ _ D K)). bounds.
    + unfold hermite, natural_k1, centered_diff. cbn. rewrite E12, E23. destruct (use_fma c), fma; field; lra.
  - assert (F := Up g2 _ G2 W2 H23 ltac:(lra)). assert (D := ex_diff v3 v2 V3 V2).
    assert (K := cdiff_exact c v1 v2 v3 _ _ V1 V2 V3 R12 I1).
    assert (N := natural_exact false _ _ _ _ D K). destruct lin.
    + assert (T1 : (B2R x - B2R g2) / bpow radix2 e = 1) by (rewrite St, <- E23; field; lra).
      eapply ex_eq.
      * apply (linear_exact fma _ _ _ _ _ ltac:(eapply is_eq; [apply F|exact T1]) (ex_val v3 V3) N).
      * unfold linear_ext, natural_k1, centered_diff. cbn. rewrite E12, E23, T1. destruct fma; ring.
    + eapply ex_eq.
      * apply (hermite_exact c _ _ _ _ _ _ _ _ _ _ F (ex_val v2 V2) D K N). bounds.
      * unfold hermite, natural_k1, centered_diff. cbn. rewrite E12, E23. destruct (use_fma c); field; lra.
Qed.
End Cell.

(** ** A regular axis *)
Section RegAxis.
Variables (b : Z) (start h x : fl) (d : Z).
Hypothesis P2 : (2 <= prec <= 62)%Z.
Hypothesis Hb : (0 <= b)%Z.
Hypothesis Hd : (4 <= d)%Z.
Hypothesis HA : dyadic_axis prec emax b start h x d.
Notation s := (B2R start).
Notation w := (B2R h).
Notation X := (B2R x).
Notation T := ((X - s) / w).
Notation a := (mkAxis d (fun i => s + w * IZR i)).

Lemma bits : (b + 1 <= prec)%Z.
Proof using P2 Hd HA.
  destruct HA as (_ & _ & _ & e & _ & _ & _ & _ & _ & _ & _ & _ & Dp).
  destruct (Z_le_gt_dec (b + 1) prec) as [|C]; auto. exfalso.
  assert (2 ^ (prec - b) <= 2 ^ 0)%Z by (apply Z.pow_le_mono_r; lia). change (2 ^ 0)%Z with 1%Z in *. lia.
Qed.
Lemma step_pos : 0 < w.
Proof using HA. destruct HA as (_ & _ & _ & e & -> & _). apply bpow_gt_0. Qed.
Lemma T_range : 0 <= T <= IZR (d - 1) /\ X = s + w * T.
Proof using HA.
  assert (S0 := step_pos). assert (Q : X = s + w * T) by (field; lra). split; [|exact Q].
  destruct HA as (_ & _ & _ & e & H). cbv zeta in H. destruct H as (_ & _ & _ & _ & _ & Hx & _).
  split; apply Rmult_le_reg_l with w; auto; lra.
Qed.
Lemma exact_cell : to_isize o (ffloor o (fdiv o (fsub o x start) h)) = Some (Zfloor T) /\ whole (bpow radix2 (- b)) T.
Proof using Hp He P2 Hb Hd HA.
  assert (Hb' := bits). assert (S0 := step_pos). destruct T_range as (TR & _).
  destruct HA as (Fs & Fh & Fx & e & H). cbv zeta in H. destruct H as (Vh & Lq & Hq & Ws & Wx & Hx & Bs & Bl & Dp).
  set (q := (e - b)%Z) in *.
  assert (ID : IZR (d - 1) <= bpow radix2 (prec - b)) by (rewrite <- IZR_Zpower by lia; apply IZR_le; exact Dp).
  assert (LS : w * IZR (d - 1) <= bpow radix2 (prec + q)).
  { rewrite Vh. replace (prec + q)%Z with (e + (prec - b))%Z by (unfold q; lia). rewrite bpow_plus. apply Rmult_le_compat_l; [apply bpow_ge_0|lra]. }
  assert (LT : bpow radix2 (prec + q) < bpow radix2 emax) by (apply bpow_lt; exact Hq).
  assert (W1 := whole_sub _ _ _ Wx Ws).
  assert (A1 : Rabs (X - s) <= bpow radix2 (prec + q)) by (rewrite Rabs_pos_eq by lra; lra).
  assert (X1 : rnd (X - s) = X - s) by (eapply (whole_exact prec emax Hp He); [exact W1|exact A1|lia|lia]).
  assert (I1 : is (fsub o x start) (X - s)) by (apply is_sub; auto; lra).
  assert (Ww : whole (bpow radix2 (- b)) T).
  { destruct W1 as (n & E). exists n. rewrite E, Vh. replace (- b)%Z with (q + - e)%Z by (unfold q; lia). rewrite bpow_plus, bpow_opp. unfold Rdiv. ring. }
  assert (AT : Rabs T <= bpow radix2 (prec - b)) by (rewrite Rabs_pos_eq; lra).
  assert (Em : (emin <= - b)%Z) by (unfold Prec_lt_emax in He; lia).
  assert (Xr : rnd T = T) by (apply (whole_exact prec emax Hp He (- b) (prec - b)); [exact Ww|exact AT|exact Em|lia]).
  assert (PE : bpow radix2 (prec - b) < bpow radix2 emax) by (apply bpow_lt; unfold Prec_lt_emax in He; lia).
  assert (I2 : is (fdiv o (fsub o x start) h) T) by (apply is_div; auto; lra).
  destruct I2 as (F2 & V2). split; [|exact Ww]. rewrite <- V2. apply (to_isize_fits prec emax Hp He); auto. rewrite V2. split.
  - apply Rle_trans with 0; [|lra]. rewrite <- opp_IZR. apply IZR_le. lia.
  - eapply Rle_lt_trans; [apply (proj2 TR)|]. apply IZR_lt. assert (2 ^ (prec - b) <= 2 ^ 62)%Z by (apply Z.pow_le_mono_r; lia). lia.
Qed.
Lemma exact_dtp n : (0 <= n <= d - 1)%Z -> Rabs (T - IZR n) <= 2 ->
  is (reg_dtp o false start h x n) (T - IZR n) /\ whole (bpow radix2 (- b)) (T - IZR n).
Proof using Hp He P2 Hb Hd HA.
  intros Hn Ht. assert (Hb' := bits). assert (S0 := step_pos). destruct T_range as (TR & XT). destruct exact_cell as (_ & WT).
  destruct HA as (Fs & Fh & Fx & e & H). cbv zeta in H. destruct H as (Vh & Lq & Hq & Ws & Wx & Hx & Bs & Bl & Dp).
  set (q := (e - b)%Z) in *. assert (B0 := bpow_gt_0 radix2 e).
  assert (ID : IZR (d - 1) <= bpow radix2 (prec - b)) by (rewrite <- IZR_Zpower by lia; apply IZR_le; exact Dp).
  assert (LS : w * IZR (d - 1) <= bpow radix2 (prec + q)).
  { rewrite Vh. replace (prec + q)%Z with (e + (prec - b))%Z by (unfold q; lia). rewrite bpow_plus. apply Rmult_le_compat_l; lra. }
  assert (LT : bpow radix2 (prec + q) < bpow radix2 emax) by (apply bpow_lt; exact Hq).
  assert (P2b : (2 ^ (prec - b) <= 2 ^ prec)%Z) by (apply Z.pow_le_mono_r; lia).
  destruct (of_usize_some Hp He n) as (nf & En). destruct (of_usize_spec En) as (Fn & Vn); [lia|].
  assert (In : is nf (IZR n)) by auto.
  assert (I0r : 0 <= IZR n) by (apply IZR_le; lia).
  assert (Id : IZR n <= IZR (d - 1)) by (apply IZR_le; lia).
  assert (Wm : whole (bpow radix2 e) (w * IZR n)) by (exists n; rewrite Vh; ring).
  assert (Am : 0 <= w * IZR n <= w * IZR (d - 1)) by (split; [apply Rmult_le_pos; lra|apply Rmult_le_compat_l; lra]).
  assert (Xm : rnd (w * IZR n) = w * IZR n).
  { apply (whole_exact prec emax Hp He e (prec + q)); [exact Wm|rewrite Rabs_pos_eq; lra|lia|unfold q; lia]. }
  assert (Wa : whole (bpow radix2 q) (s + w * IZR n)).
  { apply whole_add; [exact Ws|]. eapply whole_finer; [|exact Wm]. unfold q; lia. }
  assert (Aa : Rabs (s + w * IZR n) <= bpow radix2 (prec + q)).
  { apply Rabs_le_inv in Bs. apply Rabs_le_inv in Bl. apply Rabs_le. lra. }
  assert (Xa : rnd (s + w * IZR n) = s + w * IZR n) by (eapply (whole_exact prec emax Hp He); [exact Wa|exact Aa|lia|lia]).
  assert (Im : is (fmul o h nf) (w * IZR n)) by (apply is_mul; auto; rewrite Rabs_pos_eq; lra).
  assert (Ia : is (fadd o start (fmul o h nf)) (s + w * IZR n)) by (apply is_add; auto; lra).
  unfold reg_dtp, uf. rewrite En. set (node := fadd o start (fmul o h nf)) in *.
  assert (Ed : X - (s + w * IZR n) = (T - IZR n) * w) by (rewrite XT at 1; ring).
  assert (Wd : whole (bpow radix2 q) (X - (s + w * IZR n))) by (apply whole_sub; auto).
  assert (Ad : Rabs (X - (s + w * IZR n)) <= bpow radix2 (e + 1)).
  { rewrite Ed, Rabs_mult, (Rabs_pos_eq w) by lra. replace (e + 1)%Z with (1 + e)%Z by lia. rewrite bpow_plus, <- Vh. change (bpow radix2 1) with 2.
    apply Rmult_le_compat_r; lra. }
  assert (Xd : rnd (X - (s + w * IZR n)) = X - (s + w * IZR n)) by (eapply (whole_exact prec emax Hp He); [exact Wd|exact Ad|lia|unfold q; lia]).
  assert (LE : bpow radix2 (e + 1) < bpow radix2 emax) by (apply bpow_lt; unfold q in Hq; lia).
  assert (Is : is (fsub o x node) (X - (s + w * IZR n))) by (apply is_sub; auto; lra).
  assert (Wt : whole (bpow radix2 (- b)) (T - IZR n)).
  { apply whole_sub; [exact WT|]. eapply whole_finer; [|apply whole_IZR]. lia. }
  split; [|exact Wt].
  assert (Et : (X - (s + w * IZR n)) / w = T - IZR n) by (field; lra).
  destruct (unit_fits b _ (proj1 P2) Hb Hb' Wt Ht) as (R1 & R2).
  apply (is_eq _ ((X - (s + w * IZR n)) / w)); [|exact Et]. apply is_div; auto; [lra|rewrite Et; exact R1|rewrite Et; exact R2].
Qed.

Theorem cubic_axis_exact c : exists i sat, creg_cell o c start h d x = Ok (i, sat) /\
  forall fo lin vs B G, (emin <= G - 1 - 3 * b)%Z -> (B + 4 - (G - 1 - 3 * b) <= prec)%Z -> (B + 4 < emax)%Z ->
  (forall i, fin (vs i) /\ whole (bpow radix2 G) (B2R (vs i)) /\ Rabs (B2R (vs i)) <= bpow radix2 B) ->
  let r := reg_innerp o c fo lin sat (creg_dtp o start h x i) [vs i; vs (i + 1)%Z; vs (i + 2)%Z; vs (i + 3)%Z] in
  is r (cub1 lin a X (fun i => B2R (vs i))) /\ whole (bpow radix2 (G - 1 - 3 * b)) (B2R r).
Proof using Hp He P2 Hb Hd HA.
  destruct exact_cell as (Ei & _). assert (S0 := step_pos). destruct T_range as ((T0 & T1) & XT). assert (Hb' := bits).
  set (z := Zfloor T) in *.
  assert (Z0 : (0 <= z)%Z) by (apply Zfloor_lub; exact T0).
  assert (Z1 : (z <= d - 1)%Z) by (apply le_IZR; eapply Rle_trans; [apply Zfloor_lb|exact T1]).
  assert (L : IZR z <= T) by apply Zfloor_lb. assert (U : T < IZR z + 1) by apply Zfloor_ub.
  assert (Zb : (z <= isize_max)%Z).
  { destruct (@to_isize_floor _ _ Hp He _ _ Ei) as (_ & _ & R). lia. }
  exists (Z.min (Z.max (z - 1) 0) (d - 4)), (creg_sat d (z - 1)). split.
  { unfold creg_cell. rewrite Ei. cbn [ok_or bind]. rewrite isize_sub_ok by (unfold isize_min, isize_max in *; lia). reflexivity. }
  set (i := Z.min (Z.max (z - 1) 0) (d - 4)). set (sat := creg_sat d (z - 1)).
  assert (Hi : (0 <= i <= d - 4)%Z) by (unfold i; lia).
  assert (CS : cub_cell_sat d i sat z).
  { unfold cub_cell_sat, sat, creg_sat.
    destruct (Z.ltb_spec (z - 1) (-1)); [lia|]. destruct (Z.eqb_spec (z - 1) (-1)); [lia|].
    destruct (Z.ltb_spec (d - 3) (z - 1)); [lia|]. destruct (Z.eqb_spec (z - 1) (d - 3)); lia. }
  rewrite minus_IZR in T1.
  assert (SF : sat_frac sat (T - IZR (i + 1)) /\ Rabs (T - IZR (i + 1)) <= 2).
  { clearbody i sat. rewrite plus_IZR. destruct sat; cbn [cub_cell_sat sat_frac] in *; destruct CS as (C1 & C2).
    - rewrite C1, plus_IZR in *. split; [lra|apply Rabs_le; lra].
    - rewrite C1, C2 in *. split; [lra|apply Rabs_le; lra].
    - lia.
    - rewrite C1, C2, !minus_IZR in *. split; [lra|apply Rabs_le; lra].
    - rewrite C1, C2, !minus_IZR in *. split; [lra|apply Rabs_le; lra]. }
  destruct SF as (SF & AF). destruct (exact_dtp (i + 1) ltac:(lia) AF) as (It & Wt).
  intros fo lin vs B G HQ HP HT Hv. cbv zeta.
  destruct (reg_exact B G b (proj1 P2) Hb HQ HP HT (vs i) (vs (i + 1)%Z) (vs (i + 2)%Z) (vs (i + 3)%Z) (Hv _) (Hv _) (Hv _) (Hv _)
    c fo lin sat (creg_dtp o start h x i) (T - IZR (i + 1)) Hb' It Wt SF) as (Ir & Wr & _).
  assert (R : reg_innerp ROps c fo lin sat (T - IZR (i + 1)) [B2R (vs i); B2R (vs (i + 1)%Z); B2R (vs (i + 2)%Z); B2R (vs (i + 3)%Z)]
     = cub1 lin a X (fun i => B2R (vs i))).
  { replace (T - IZR (i + 1)) with (creg_dtp ROps s w X i) by (unfold creg_dtp, uf; simpl; field; lra).
    rewrite (@reg_rect_inner c fo fo lin sat s w X i) by auto.
    apply (@cub_axis a lin X i sat z (fun i => B2R (vs i))); auto.
    - split; [apply reg_axis_inc; auto|exact Hd].
    - unfold outer_adm, adm. cbn [coord npts]. split; [lia|]. split; right.
      + rewrite XT. apply Rplus_le_compat_l. apply Rmult_le_compat_l; lra.
      + rewrite XT, plus_IZR. apply Rplus_le_compat_l. apply Rmult_le_compat_l; lra. }
  rewrite R in Ir, Wr. split; [exact Ir|]. rewrite (proj2 Ir). exact Wr.
Qed.
End RegAxis.

(** ** An evenly spaced rectilinear axis *)
Section RectAxis.
Variables (b : Z) (g : list fl) (x : fl).
Notation a := (list_axis (map (@B2R prec emax) g)).
Notation X := (B2R x).
Hypothesis P2 : (2 <= prec)%Z.
Hypothesis Hb : (0 <= b)%Z.
Hypothesis Hb' : (b + 1 <= prec)%Z.
Hypothesis Ig : increasing_grid o g.
Hypothesis Hg : (4 <= zlen g)%Z.
Hypothesis Sg : Forall (@moderate prec emax) g.
Hypothesis Fx : fin x.
Hypothesis Hx : coord a 0 <= X <= coord a (npts a - 1).
Hypothesis HD : even_dyadic_grid prec emax b g x.

Lemma rect_inc : strictly_increasing (map (@B2R prec emax) g).
Proof using All. apply (increasing_B2R prec emax Hp He); auto. eapply fin_grid; eauto. Qed.
Lemma even_ratio : spacing_ratio_at_most a 1.
Proof using All.
  destruct HD as (e & _ & _ & _ & Q). intros i H0 H1. unfold list_axis in H1. cbn [npts] in H1. rewrite zlen_map in H1.
  assert (N : forall i, (0 <= i)%Z -> (i + 1 < zlen g)%Z -> spacing a i = bpow radix2 e).
  { intros j J0 J1. unfold spacing. rewrite !(coord_gz prec emax Hp He g). unfold gz. unfold zlen in J1.
    apply (Q (Z.to_nat j)); [|replace (S (Z.to_nat j)) with (Z.to_nat (j + 1)) by lia]; apply nth_error_nth_some; lia. }
  rewrite !N by lia. lra.
Qed.
Lemma crect_axis_bound lin f M : (forall i, (0 <= i < zlen g)%Z -> Rabs (f i) <= M) -> Rabs (cub1 lin a X f) <= 5 / 4 * M.
Proof using All.
  intros Hf. replace (5 / 4) with (cubic_gain 1) by (unfold cubic_gain; field).
  apply (cub1_norm a (list_axis_inc rect_inc)); auto.
  - unfold list_axis. cbn [npts]. rewrite zlen_map. exact Hg.
  - exact even_ratio.
  - intros i. unfold list_axis. cbn [npts]. rewrite zlen_map. apply Hf.
Qed.
Theorem crect_axis_exact c fma lin vs B G : (emin <= G - 1 - 3 * b)%Z -> (B + 4 - (G - 1 - 3 * b) <= prec)%Z -> (B + 4 < emax)%Z ->
  (forall i, fin (vs i) /\ whole (bpow radix2 G) (B2R (vs i)) /\ Rabs (B2R (vs i)) <= bpow radix2 B) ->
  let p := crect_cell o g x in
  let r := rect_innerp o c fma lin (snd p) x (cell4 o g (fst p)) [vs (fst p); vs (fst p + 1)%Z; vs (fst p + 2)%Z; vs (fst p + 3)%Z] in
  is r (cub1 lin a X (fun i => B2R (vs i))) /\ whole (bpow radix2 (G - 1 - 3 * b)) (B2R r).
Proof using All.
  intros HQ HP HT Hv p r. assert (SI := rect_inc).
  assert (L : (zlen (map (@B2R prec emax) g) = zlen g)) by apply zlen_map.
  assert (Rg := @crect_cell_range _ o g x ltac:(lia)). fold p in Rg.
  destruct HD as (e & Lq & Wx & Wg & Q).
  assert (Hz : forall i, (0 <= i < zlen g)%Z -> @moderate prec emax (gz o g i)).
  { intros i Hi. unfold gz. apply (Forall_nth_lt (fzero o) Sg). unfold zlen in Hi. lia. }
  assert (Wz : forall i, (0 <= i < zlen g)%Z -> whole (bpow radix2 (e - b)) (B2R (gz o g i))).
  { intros i Hi. unfold gz. apply (Forall_nth_lt (fzero o) Wg). unfold zlen in Hi. lia. }
  assert (Ez : forall i, (0 <= i)%Z -> (i + 1 < zlen g)%Z -> B2R (gz o g (i + 1)) - B2R (gz o g i) = bpow radix2 e).
  { intros j J0 J1. unfold gz. unfold zlen in J1.
    apply (Q (Z.to_nat j)); [|replace (S (Z.to_nat j)) with (Z.to_nat (j + 1)) by lia]; apply nth_error_nth_some; lia. }
  assert (Lm : (e < emax)%Z).
  { apply (lt_bpow radix2). rewrite <- (Ez 0%Z) by lia. destruct (Hz 0%Z ltac:(lia)) as (_ & Su). destruct (Hz (0 + 1)%Z ltac:(lia)) as (_ & Sv).
    apply Rabs_le_inv in Su. apply Rabs_le_inv in Sv.
    assert (bpow radix2 (emax - 2) + bpow radix2 (emax - 2) = bpow radix2 (emax - 1)).
    { replace (emax - 1)%Z with (1 + (emax - 2))%Z by lia. rewrite bpow_plus. change (bpow radix2 1) with 2. ring. }
    assert (bpow radix2 (emax - 1) < bpow radix2 emax) by (apply bpow_lt; lia). lra. }
  assert (Hx0 : B2R (gz o g 0) <= X) by (rewrite <- (coord_gz prec emax Hp He); apply Hx).
  assert (Hx1 : X <= B2R (gz o g (zlen g - 1))).
  { rewrite <- (coord_gz prec emax Hp He). destruct Hx as (_ & Q'). unfold list_axis in Q' at 2. cbn [npts] in Q'. rewrite L in Q'. exact Q'. }
  assert (Sat : sat_cell (gz o g (fst p)) (gz o g (fst p + 1)) (gz o g (fst p + 2)) (gz o g (fst p + 3)) x (snd p)).
  { destruct (@pp_of_R (map B2R g) X SI) as (P0 & P1 & P2'). rewrite <- (pp_of_float prec emax Hp He g x Sg Fx) in P0, P1, P2'. rewrite L in *.
    assert (P1' : forall i, (0 <= i < pp_of o g x)%Z -> B2R (gz o g i) < X).
    { intros i Hi'. rewrite <- (coord_gz prec emax Hp He). exact (P1 i Hi'). }
    assert (P3' : forall i, (pp_of o g x <= i < zlen g)%Z -> X <= B2R (gz o g i)).
    { intros i Hi'. rewrite <- (coord_gz prec emax Hp He). exact (P2' i Hi'). }
    unfold p, crect_cell. cbn [fst snd]. set (q := pp_of o g x) in *. unfold crect_sat.
    assert (Qn : (q < zlen g)%Z).
    { destruct (Z_lt_le_dec q (zlen g)); auto. exfalso. assert (Y := P1' (zlen g - 1)%Z ltac:(lia)). lra. }
    destruct (Z.eqb_spec (q - 2) (-2)); [|destruct (Z.eqb_spec (q - 2) (-1)); [|destruct (Z.eqb_spec (q - 2) (zlen g - 2)); [lia|
      destruct (Z.eqb_spec (q - 2) (zlen g - 3))]]]; cbn [sat_cell].
    - replace (Z.min (Z.max (q - 2) 0) (zlen g - 4)) with 0%Z by lia. apply Rle_antisym; [apply P3'; lia|exact Hx0].
    - replace (Z.min (Z.max (q - 2) 0) (zlen g - 4)) with 0%Z by lia. split; [exact Hx0|apply P3'; lia].
    - replace (Z.min (Z.max (q - 2) 0) (zlen g - 4)) with (q - 3)%Z by lia. split; [left; apply P1'; lia|apply P3'; lia].
    - replace (Z.min (Z.max (q - 2) 0) (zlen g - 4)) with (q - 2)%Z by lia. split; [left; apply P1'; lia|apply P3'; lia]. }
  assert (D0 := Ez (fst p) ltac:(lia) ltac:(lia)). assert (D1 := Ez (fst p + 1)%Z ltac:(lia) ltac:(lia)). assert (D2 := Ez (fst p + 2)%Z ltac:(lia) ltac:(lia)).
  replace (fst p + 1 + 1)%Z with (fst p + 2)%Z in D1 by lia. replace (fst p + 2 + 1)%Z with (fst p + 3)%Z in D2 by lia.
  destruct (rect_exact B G b P2 Hb HQ HP HT (vs (fst p)) (vs (fst p + 1)%Z) (vs (fst p + 2)%Z) (vs (fst p + 3)%Z) (Hv _) (Hv _) (Hv _) (Hv _)
    (gz o g (fst p)) (gz o g (fst p + 1)) (gz o g (fst p + 2)) (gz o g (fst p + 3)) x e (e - b) Hb') with (c := c) (fma := fma) (lin := lin) (sat := snd p) as (Ir & Wr & _); auto.
  - repeat split; auto; apply Hz; lia.
  - repeat split; auto; apply Wz; lia.
  - lia.
  - assert (R : rect_innerp ROps c fma lin (snd p) X [B2R (gz o g (fst p)); B2R (gz o g (fst p + 1)); B2R (gz o g (fst p + 2)); B2R (gz o g (fst p + 3))]
       [B2R (vs (fst p)); B2R (vs (fst p + 1)%Z); B2R (vs (fst p + 2)%Z); B2R (vs (fst p + 3)%Z)] = cub1 lin a X (fun i => B2R (vs i))).
    { rewrite <- (@cub_rect_axis c fma lin (map B2R g) X (fun i => B2R (vs i)) SI) by lia.
      rewrite <- (crect_cell_float prec emax Hp He g x Sg Fx). fold p.
      assert (Gz : forall i, gz ROps (map B2R g) i = B2R (gz o g i)) by (intros i; rewrite <- (coord_gz prec emax Hp He); reflexivity).
      unfold cell4. rewrite !Gz. reflexivity. }
    rewrite R in Ir, Wr. split; [exact Ir|]. unfold r. unfold cell4. rewrite (proj2 Ir). exact Wr.
Qed.
End RectAxis.

(** ** All axes *)
Section Tens.
Variables (dims os : list Z) (Vh : list Z -> fl) (Ls : list ((Z -> R) -> R)) (nd : nat -> list fl -> fl) (a b g : Z).
Notation N := (length dims).
Hypothesis Hb : (0 <= b)%Z.
Hypothesis HLs : lfs dims Ls.
Hypothesis HV : forall idx, fin (Vh idx) /\ whole (bpow radix2 g) (B2R (Vh idx)) /\ Rabs (B2R (Vh idx)) <= bpow radix2 (g + a).
Hypothesis HG : forall k f M, (k < N)%nat -> (forall i, Rabs (f i) <= M) -> Rabs (nth k Ls (fun _ => 0) f) <= 5 / 4 * M.
Hypothesis Hnd : forall k vs B G, (k < N)%nat -> (emin <= G - 1 - 3 * b)%Z -> (B + 4 - (G - 1 - 3 * b) <= prec)%Z -> (B + 4 < emax)%Z ->
  (forall i, fin (vs i) /\ whole (bpow radix2 G) (B2R (vs i)) /\ Rabs (B2R (vs i)) <= bpow radix2 B) ->
  let z := nth k os 0%Z in let r := nd k [vs z; vs (z + 1)%Z; vs (z + 2)%Z; vs (z + 3)%Z] in
  is r (nth k Ls (fun _ => 0) (fun i => B2R (vs i))) /\ whole (bpow radix2 (G - 1 - 3 * b)) (B2R r).
Hypothesis Hfit : (a + 3 + Z.of_nat N * (3 * b + 2) <= prec)%Z.
Hypothesis Hlow : (emin <= g - Z.of_nat N * (3 * b + 1))%Z.
Hypothesis Hhigh : (g + a + Z.of_nat N + 3 < emax)%Z.

Lemma tens4_exact k suf : (k <= N)%nat -> let v := tens 4 Vh nd os k suf in
  is v (tenL (firstn k Ls) (fun idx => B2R (Vh (idx ++ suf)))) /\
  whole (bpow radix2 (g - Z.of_nat k * (3 * b + 1))) (B2R v) /\ Rabs (B2R v) <= bpow radix2 (g + a + Z.of_nat k).
Proof using All.
  assert (LL : length Ls = N) by (symmetry; apply (Forall2_len _ _ _ _ _ HLs)).
  revert suf. induction k as [|k IH]; intros suf Hk.
  { cbn [tens firstn tenL app]. destruct (HV suf) as (F & W & B). replace (g - Z.of_nat 0 * (3 * b + 1))%Z with g by lia.
    replace (g + a + Z.of_nat 0)%Z with (g + a)%Z by lia. auto. }
  assert (HLk : lfs (firstn k dims) (firstn k Ls)) by (apply Forall2_firstn; exact HLs).
  assert (HL : lf (nth k dims 0%Z) (nth k Ls (fun _ => 0))) by (apply (Forall2_nth_lt _ _ _ _ _ k 0%Z (fun _ => 0) HLs); lia).
  assert (E : firstn (S k) Ls = firstn k Ls ++ [nth k Ls (fun _ => 0)]).
  { clear - Hk LL. rewrite <- LL in Hk. clear LL. revert k Hk. induction Ls as [|L Ls' IH]; intros k Hk; simpl in *; [lia|].
    destruct k; auto. simpl. f_equal. apply IH. lia. }
  rewrite E, (tenL_snoc _ HLk HL). cbn [tens seq map].
  set (z := nth k os 0%Z).
  change (Z.of_nat 0) with 0%Z. change (Z.of_nat 1) with 1%Z. change (Z.of_nat 2) with 2%Z. change (Z.of_nat 3) with 3%Z. rewrite Z.add_0_r. cbv zeta.
  set (vs := fun i => tens 4 Vh nd os k (i :: suf)).
  assert (IV : forall i, is (vs i) (tenL (firstn k Ls) (fun idx => B2R (Vh (idx ++ i :: suf)))) /\
    whole (bpow radix2 (g - Z.of_nat k * (3 * b + 1))) (B2R (vs i)) /\ Rabs (B2R (vs i)) <= bpow radix2 (g + a + Z.of_nat k)).
  { intros i. apply (IH (i :: suf)). lia. }
  clear IH.
  assert (KN : (0 <= Z.of_nat k * (3 * b + 1) <= Z.of_nat N * (3 * b + 1) - (3 * b + 1))%Z) by nia.
  assert (KM : (Z.of_nat k * (3 * b + 2) <= Z.of_nat N * (3 * b + 2) - (3 * b + 2))%Z) by nia.
  set (G := (g - Z.of_nat k * (3 * b + 1))%Z) in *. set (B := (g + a + Z.of_nat k)%Z) in *.
  destruct (Hnd k vs B G) as (Ir & Wr); try (unfold B, G; lia).
  { intros i. destruct (IV i) as ((F & _) & W & Bd). auto. }
  fold z in Ir, Wr. cbv zeta in Ir, Wr.
  change (tens 4 Vh nd os k (z :: suf)) with (vs z). change (tens 4 Vh nd os k ((z + 1)%Z :: suf)) with (vs (z + 1)%Z).
  change (tens 4 Vh nd os k ((z + 2)%Z :: suf)) with (vs (z + 2)%Z). change (tens 4 Vh nd os k ((z + 3)%Z :: suf)) with (vs (z + 3)%Z).
  split; [|split].
  - eapply is_eq; [exact Ir|]. destruct HL as (_ & _ & Hext). apply Hext. intros i _. rewrite (proj2 (proj1 (IV i))).
    apply (tenL_ext _ _ HLk). intros idx _. rewrite <- app_assoc. reflexivity.
  - replace (g - Z.of_nat (S k) * (3 * b + 1))%Z with (G - 1 - 3 * b)%Z by (unfold G; lia). exact Wr.
  - rewrite (proj2 Ir). replace (g + a + Z.of_nat (S k))%Z with (1 + B)%Z by (unfold B; lia). rewrite bpow_plus. change (bpow radix2 1) with 2.
    assert (B0 := bpow_gt_0 radix2 B). eapply Rle_trans; [apply (HG k _ (bpow radix2 B)); [lia|apply IV]|]. lra.
Qed.
End Tens.
End B.
