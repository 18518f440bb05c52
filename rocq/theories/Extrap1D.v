(** The one-dimensional linear and cubic interpolants outside the axis. *)
From Coq Require Import Reals Lra PeanoNat Bool ZifyBool ZifyNat.
From Verif Require Import Base Ops Spec SpecReal RTensor RPoly R1D SpecApprox Approx1D SpecExtrap.
Unset Implicit Arguments.
Open Scope R_scope.

Section Over.
Variable a : axis.
Hypothesis Ha : increasing_axis a.
Hypothesis Hn : (2 <= npts a)%Z.

Lemma first_gap : 0 < spacing a 0.
Proof using Ha Hn. apply (axis_gap Ha); lia. Qed.
Lemma last_gap : 0 < spacing a (npts a - 2).
Proof using Ha Hn. apply (axis_gap Ha); lia. Qed.
Lemma overshoot_nonneg x : 0 <= overshoot a x.
Proof using. apply Rmax_l. Qed.
Lemma overshoot_cases x : coord a 0 <= x <= coord a (npts a - 1) /\ overshoot a x = 0 \/
  x = coord a 0 - overshoot a x * spacing a 0 \/
  x = coord a (npts a - 1) + overshoot a x * spacing a (npts a - 2).
Proof using Ha Hn.
  assert (G0 := first_gap). assert (G1 := last_gap).
  assert (C : coord a 0 < coord a (npts a - 1)) by (apply Ha; lia).
  assert (P : forall y w, 0 < w -> y <= 0 -> y / w <= 0).
  { intros y w Hw Hy. apply Rmult_le_reg_r with w; auto. unfold Rdiv. rewrite Rmult_assoc, Rinv_l by lra. lra. }
  assert (Q : forall y w, 0 < w -> 0 <= y -> 0 <= y / w).
  { intros y w Hw Hy. apply Rmult_le_pos; auto. left. apply Rinv_0_lt_compat; auto. }
  unfold overshoot. destruct (Rle_or_lt x (coord a 0)) as [H|H].
  - right. left. rewrite (Rmax_left _ ((x - coord a (npts a - 1)) / _)).
    + rewrite Rmax_right by (apply Q; lra). field. lra.
    + eapply Rle_trans; [apply P; lra|apply Q; lra].
  - destruct (Rle_or_lt (coord a (npts a - 1)) x) as [H'|H'].
    + right. right. rewrite (Rmax_right ((coord a 0 - x) / _)).
      * rewrite Rmax_right by (apply Q; lra). field. lra.
      * eapply Rle_trans; [apply P; lra|apply Q; lra].
    + left. split; [lra|]. apply Rmax_left. apply Rmax_lub; apply P; lra.
Qed.

Lemma overshoot_inside_0 x : coord a 0 <= x <= coord a (npts a - 1) -> overshoot a x = 0.
Proof using Ha Hn.
  intros H. assert (G0 := first_gap). assert (G1 := last_gap). assert (D := overshoot_nonneg x).
  destruct (overshoot_cases x) as [(_ & E)|[E|E]]; auto; nra.
Qed.

(** ** Linear *)
Lemma lin1_low x f : x <= coord a 0 -> lin1 a x f = f 0%Z + (x - coord a 0) / spacing a 0 * (f 1%Z - f 0%Z).
Proof using Ha Hn.
  intros H. assert (G0 := first_gap). unfold spacing in *. change (0 + 1)%Z with 1%Z in *.
  rewrite (@lin1_eq a Ha Hn x f 0).
  - unfold lin_piece, dd. change (0 + 1)%Z with 1%Z. field. lra.
  - split; [lia|]. split; [left; reflexivity|right]. change (0 + 1)%Z with 1%Z. lra.
Qed.
Lemma lin1_high x f : coord a (npts a - 1) <= x -> lin1 a x f = f (npts a - 1)%Z
  + (x - coord a (npts a - 1)) / spacing a (npts a - 2) * (f (npts a - 1)%Z - f (npts a - 2)%Z).
Proof using Ha Hn.
  intros H. assert (G0 := last_gap). unfold spacing in *. replace (npts a - 2 + 1)%Z with (npts a - 1)%Z in * by lia.
  rewrite (@lin1_eq a Ha Hn x f (npts a - 2)).
  - unfold lin_piece, dd. replace (npts a - 2 + 1)%Z with (npts a - 1)%Z by lia. field. lra.
  - split; [lia|]. split; [right; lra|left; lia].
Qed.

Lemma line_norm p q d E : 0 <= d -> Rabs p <= E -> Rabs q <= E -> Rabs (p + d * (p - q)) <= (1 + 2 * d) * E.
Proof using. clear. intros Hd Hp Hq. apply Rabs_le_inv in Hp, Hq. apply Rabs_le. split; nra. Qed.

Lemma lin1_norm_any x f E : (forall i, (0 <= i < npts a)%Z -> Rabs (f i) <= E) ->
  Rabs (lin1 a x f) <= (1 + 2 * overshoot a x) * E.
Proof using Ha Hn.
  intros HE. assert (D0 := overshoot_nonneg x). assert (G0 := first_gap). assert (G1 := last_gap).
  destruct (overshoot_cases x) as [(H & E0)|[H|H]].
  - rewrite E0. replace (1 + 2 * 0) with 1 by ring. rewrite Rmult_1_l.
    destruct (@in_cell_ex a Hn x) as (o & Ho). apply Rabs_le. apply (@lin1_bounds a Ha Hn x f o).
    + apply Ho.
    + destruct Ho as (J1 & J2 & J3). split; [destruct J2 as [-> |]; lra|].
      destruct J3 as [-> |]; [|lra]. replace (npts a - 2 + 1)%Z with (npts a - 1)%Z by lia. lra.
    + intros i Hi. apply Rabs_le_inv. apply HE. destruct Ho. lia.
  - rewrite (lin1_low x f) by nra. set (d := overshoot a x) in *.
    replace ((x - coord a 0) / spacing a 0) with (- d) by (rewrite H; field; lra).
    replace (f 0%Z + - d * (f 1%Z - f 0%Z)) with (f 0%Z + d * (f 0%Z - f 1%Z)) by ring.
    apply line_norm; auto; apply HE; lia.
  - rewrite (lin1_high x f) by nra. set (d := overshoot a x) in *.
    replace ((x - coord a (npts a - 1)) / spacing a (npts a - 2)) with d by (rewrite H; field; lra).
    apply line_norm; auto; apply HE; lia.
Qed.
End Over.

(** The chord of a smooth function. *)
Lemma chord A B h D1 D2 M p m q : (forall s, A <= s <= B -> derivable_pt_lim h s (D1 s)) ->
  (forall s, A <= s <= B -> derivable_pt_lim D1 s (D2 s)) ->
  (forall r, A <= r <= B -> Rabs (D2 r) <= M) -> A <= p -> q <= B -> p <= m <= q ->
  Rabs ((q - m) * h p + (m - p) * h q - (q - p) * h m) <= M / 2 * ((m - p) * (q - m)) * (q - p).
Proof.
  intros H1 H2 HM Hp Hq Hm.
  assert (B0 := taylor1 A B h D1 D2 M m p H1 H2 HM ltac:(lra) ltac:(lra)).
  assert (B1 := taylor1 A B h D1 D2 M m q H1 H2 HM ltac:(lra) ltac:(lra)).
  set (r0 := h p - (h m + D1 m * (p - m))) in *. set (r1 := h q - (h m + D1 m * (q - m))) in *.
  replace ((q - m) * h p + (m - p) * h q - (q - p) * h m) with ((q - m) * r0 + (m - p) * r1) by (unfold r0, r1; ring).
  eapply Rle_trans; [apply Rabs_triang|]. rewrite !Rabs_mult, (Rabs_right (q - m)), (Rabs_right (m - p)) by lra.
  apply Rle_trans with ((q - m) * (M / 2 * (p - m) ^ 2) + (m - p) * (M / 2 * (q - m) ^ 2)).
  - apply Rplus_le_compat; apply Rmult_le_compat_l; lra.
  - right. field.
Qed.

Section LinAny.
Variable a : axis.
Hypothesis Ha : increasing_axis a.
Hypothesis Hn : (2 <= npts a)%Z.
Variables (x A B : R) (h D1 D2 : R -> R) (M H : R).
Hypothesis HA : A <= coord a 0 /\ A <= x.
Hypothesis HB : coord a (npts a - 1) <= B /\ x <= B.
Hypothesis H1 : forall s, A <= s <= B -> derivable_pt_lim h s (D1 s).
Hypothesis H2 : forall s, A <= s <= B -> derivable_pt_lim D1 s (D2 s).
Hypothesis HM : forall s, A <= s <= B -> Rabs (D2 s) <= M.
Hypothesis HH : spacing_at_most a H.

Lemma square_bound w d : 0 <= M -> 0 < w <= H -> 0 <= d -> M / 2 * (d * w * ((1 + d) * w)) <= M * H ^ 2 * linear_miss d.
Proof using.
  clear. intros M0 W D. unfold linear_miss. replace (M / 2 * (d * w * ((1 + d) * w))) with (M * (w ^ 2 * (d * (1 + d) / 2))) by field.
  rewrite Rmult_assoc. apply Rmult_le_compat_l; auto.
  assert (0 <= d * (1 + d)) by nra. assert (w ^ 2 <= H ^ 2) by (apply pow_incr; lra).
  apply Rle_trans with (H ^ 2 * (d * (1 + d) / 2)).
  - apply Rmult_le_compat_r; lra.
  - apply Rmult_le_compat_l; [apply pow2_ge_0|lra].
Qed.

Lemma lin1_error_any : let d := overshoot a x in
  Rabs (lin1 a x (fun i => h (coord a i)) - h x) <= M * H ^ 2 * linear_miss d.
Proof using All.
  intros d. assert (D0 := overshoot_nonneg a x). fold d in D0.
  assert (M0 : 0 <= M) by (eapply Rle_trans; [apply Rabs_pos|apply (HM x); lra]).
  assert (C : coord a 0 < coord a (npts a - 1)) by (apply Ha; lia).
  assert (G0 := first_gap a Ha Hn). assert (G1 := last_gap a Ha Hn).
  assert (W0 := HH 0%Z ltac:(lia)). assert (W1 := HH (npts a - 2)%Z ltac:(lia)).
  assert (E0 : coord a 1 - coord a 0 = spacing a 0) by reflexivity.
  assert (E1 : coord a (npts a - 1) - coord a (npts a - 2) = spacing a (npts a - 2)) by (unfold spacing; repeat match goal with |- context[(?n - ?k + 1)%Z] => let v := eval compute in (k - 1)%Z in replace (n - k + 1)%Z with (n - v)%Z by lia end; reflexivity).
  assert (K0 : coord a 0 <= coord a (npts a - 2)) by (apply (axis_le Ha); lia).
  assert (K1 : coord a 1 <= coord a (npts a - 1)) by (apply (axis_le Ha); lia).
  destruct (overshoot_cases a Ha Hn x) as [(Hx & Ed)|[Hx|Hx]].
  - fold d in Ed. rewrite Ed. unfold linear_miss. destruct (@in_cell_ex a Hn x) as (o & Ho).
    assert (O := proj1 Ho).
    assert (Hc : coord a o <= x <= coord a (o + 1)).
    { destruct Ho as (J1 & J2 & J3). split; [destruct J2 as [-> |]; lra|].
      destruct J3 as [-> |]; [|lra]. replace (npts a - 2 + 1)%Z with (npts a - 1)%Z by lia. lra. }
    assert (R0 : coord a 0 <= coord a o) by (apply (axis_le Ha); lia).
    assert (R1 : coord a (o + 1) <= coord a (npts a - 1)) by (apply (axis_le Ha); lia).
    eapply Rle_trans; [apply (lin1_error a Ha Hn x o Ho Hc h D1 D2 M)|].
    + intros s Hs. apply H1. lra.
    + intros s Hs. apply H2. lra.
    + intros s Hs. apply HM. lra.
    + assert (W := HH o O). assert (0 < spacing a o) by (apply (axis_gap Ha); lia).
      replace (M * H ^ 2 * (1 / 8 + 0 * (1 + 0) / 2)) with (M * H ^ 2 / 8) by field.
      assert (spacing a o ^ 2 <= H ^ 2) by (apply pow_incr; lra).
      assert (M * spacing a o ^ 2 <= M * H ^ 2) by (apply Rmult_le_compat_l; auto). lra.
  - fold d in Hx. set (w := spacing a 0) in *.
    rewrite (lin1_low a Ha Hn) by nra. fold w.
    replace ((x - coord a 0) / w) with (- d) by (rewrite Hx; field; lra).
    assert (Q := chord A B h D1 D2 M x (coord a 0) (coord a 1) H1 H2 HM ltac:(lra) ltac:(lra) ltac:(nra)).
    replace (coord a 1 - coord a 0) with w in Q by lra. replace (coord a 0 - x) with (d * w) in Q by lra.
    replace (coord a 1 - x) with ((1 + d) * w) in Q by lra.
    eapply Rle_trans; [|apply (square_bound w d M0); [lra|lra]].
    apply Rmult_le_reg_r with w; auto. rewrite <- (Rabs_right w) at 1 by lra. rewrite <- Rabs_mult, <- Rabs_Ropp.
    replace (- ((h (coord a 0) + - d * (h (coord a 1) - h (coord a 0)) - h x) * w))
      with (w * h x + d * w * h (coord a 1) - (1 + d) * w * h (coord a 0)) by ring.
    eapply Rle_trans; [exact Q|]. 
    replace (M / 2 * (d * w * w) * ((1 + d) * w)) with (M / 2 * (d * w * ((1 + d) * w)) * w) by ring. lra.
  - fold d in Hx. set (w := spacing a (npts a - 2)) in *.
    rewrite (lin1_high a Ha Hn) by nra. fold w.
    replace ((x - coord a (npts a - 1)) / w) with d by (rewrite Hx; field; lra).
    assert (Q := chord A B h D1 D2 M (coord a (npts a - 2)) (coord a (npts a - 1)) x H1 H2 HM ltac:(lra) ltac:(lra) ltac:(nra)).
    rewrite E1 in Q. replace (x - coord a (npts a - 1)) with (d * w) in Q by lra.
    replace (x - coord a (npts a - 2)) with ((1 + d) * w) in Q by lra.
    eapply Rle_trans; [|apply (square_bound w d M0); [lra|lra]].
    apply Rmult_le_reg_r with w; auto. rewrite <- (Rabs_right w) at 1 by lra. rewrite <- Rabs_mult, <- Rabs_Ropp.
    set (p := h (coord a (npts a - 1))) in *. set (q := h (coord a (npts a - 2))) in *.
    replace (- ((p + d * (p - q) - h x) * w)) with (d * w * q + w * h x - (1 + d) * w * p) by ring.
    eapply Rle_trans; [exact Q|]. right. ring.
Qed.
End LinAny.

(** ** Cubic: beyond the ends *)
Section Ends.
Variable a : axis.
Hypothesis Ha : increasing_axis a.
Hypothesis Hn : (4 <= npts a)%Z.

(** Value and slope at an end, and the parabola that continues the interpolant: [e] is the end,
    [n] the node next to it. *)
Definition continued (f : Z -> R) (e n : Z) (x : R) : R :=
  f e + slope a f e * (x - coord a e)
  + (f n - f e - slope a f e * (coord a n - coord a e)) * ((x - coord a e) / (coord a n - coord a e)) ^ 2.

Lemma cub1_below f x : x <= coord a 0 -> cub1 false a x f = continued f 0 1 x.
Proof using Ha Hn.
  intros Hx. assert (G0 : 0 < gap (coord a) 0) by (apply (axis_gap Ha); lia). unfold gap in G0. change (0 + 1)%Z with 1%Z in G0.
  rewrite (@cub1_herm a Ha Hn false f x 0).
  - unfold herm_piece, continued. change (0 + 1)%Z with 1%Z. unfold gap, dd. change (0 + 1)%Z with 1%Z.
    assert (E : slope a f 0 = 2 * ((f 1%Z - f 0%Z) / (coord a 1 - coord a 0)) - slope a f 1).
    { unfold slope. simpl (0 =? 0)%Z. simpl (1 =? 0)%Z. replace (1 =? npts a - 1)%Z with false by lia. reflexivity. }
    set (m1 := slope a f 1) in *. rewrite E. field. lra.
  - split; [lia|]. split; [left; reflexivity|right]. change (0 + 1)%Z with 1%Z. lra.
  - right. reflexivity.
Qed.

Lemma cub1_above f x : coord a (npts a - 1) <= x -> cub1 false a x f = continued f (npts a - 1) (npts a - 2) x.
Proof using Ha Hn.
  intros Hx. assert (G0 : 0 < gap (coord a) (npts a - 2)) by (apply (axis_gap Ha); lia). unfold gap in G0.
  replace (npts a - 2 + 1)%Z with (npts a - 1)%Z in G0 by lia.
  rewrite (@cub1_herm a Ha Hn false f x (npts a - 2)).
  - unfold herm_piece, continued, gap, dd. replace (npts a - 2 + 1)%Z with (npts a - 1)%Z by lia.
    assert (E : slope a f (npts a - 1) = 2 * ((f (npts a - 1)%Z - f (npts a - 2)%Z) / (coord a (npts a - 1) - coord a (npts a - 2))) - slope a f (npts a - 2)).
    { unfold slope. replace (npts a - 1 =? 0)%Z with false by lia. replace (npts a - 2 =? 0)%Z with false by lia.
      rewrite Z.eqb_refl. replace (npts a - 2 =? npts a - 1)%Z with false by lia. unfold dd.
      replace (npts a - 2 + 1)%Z with (npts a - 1)%Z by lia. reflexivity. }
    set (m1 := slope a f (npts a - 2)) in *. rewrite E. field. lra.
  - split; [lia|]. split; [right; lra|left; lia].
  - right. reflexivity.
Qed.

Section Gain.
Variable rho : R.
Hypothesis Hr : spacing_ratio_at_most a rho.

Lemma end_parts w g D0 D1 E : 0 < w -> 0 < g -> w <= rho * g -> Rabs D0 <= 2 * E -> Rabs D1 <= 2 * E -> 0 <= E ->
  let b := w / (w + g) * D0 - w * w / (g * (g + w)) * D1 in
  Rabs b <= 2 * rho * E /\ Rabs (D0 + b) <= (2 + 2 * rho) * E.
Proof using.
  clear. intros W G R B0 B1 E0 b.
  assert (X : 0 <= w / (w + g)) by (apply Rmult_le_pos; [lra|left; apply Rinv_0_lt_compat; lra]).
  assert (Y : 0 <= w * w / (g * (g + w))) by (apply Rmult_le_pos; [nra|left; apply Rinv_0_lt_compat; nra]).
  assert (S : w / (w + g) + w * w / (g * (g + w)) = w / g) by (field; lra).
  assert (Q : w / g <= rho) by (apply Rmult_le_reg_r with g; auto; unfold Rdiv; rewrite Rmult_assoc, Rinv_l by lra; lra).
  assert (B : Rabs b <= 2 * rho * E).
  { unfold b. eapply Rle_trans; [apply Rabs_triang|]. rewrite Rabs_Ropp, !Rabs_mult, (Rabs_right (w / (w + g))), (Rabs_right (w * w / _)) by lra.
    apply Rle_trans with (w / (w + g) * (2 * E) + w * w / (g * (g + w)) * (2 * E)).
    - apply Rplus_le_compat; apply Rmult_le_compat_l; auto.
    - rewrite <- Rmult_plus_distr_r, S. nra. }
  split; auto. eapply Rle_trans; [apply Rabs_triang|]. lra.
Qed.

(** At either end: the change over one cell with the end slope, and its distance from the first
    difference. *)
Lemma end_slope_bound f E e n : (e = 0 /\ n = 1 \/ e = npts a - 1 /\ n = npts a - 2)%Z ->
  (forall i, (0 <= i < npts a)%Z -> Rabs (f i) <= E) ->
  Rabs (slope a f e * (coord a n - coord a e)) <= (2 + 2 * rho) * E /\
  Rabs (f n - f e - slope a f e * (coord a n - coord a e)) <= 2 * rho * E.
Proof using Ha Hn Hr.
  intros Hen HE. assert (E0 : 0 <= E) by (eapply Rle_trans; [apply Rabs_pos|apply (HE 0%Z); lia]).
  assert (HD : forall i j, (0 <= i < npts a)%Z -> (0 <= j < npts a)%Z -> Rabs (f i - f j) <= 2 * E).
  { intros i j Hi Hj. eapply Rle_trans; [apply Rabs_triang|]. rewrite Rabs_Ropp. specialize (HE i Hi) as P. specialize (HE j Hj). lra. }
  destruct Hen as [(-> & ->)|(-> & ->)].
  - assert (W : 0 < spacing a 0) by (apply (axis_gap Ha); lia). assert (G : 0 < spacing a 1) by (apply (axis_gap Ha); lia).
    destruct (Hr 0%Z ltac:(lia) ltac:(lia)) as (R & _). change (0 + 1)%Z with 1%Z in R.
    destruct (end_parts _ _ (f 1%Z - f 0%Z) (f 2%Z - f 1%Z) E W G R (HD 1%Z 0%Z ltac:(lia) ltac:(lia)) (HD 2%Z 1%Z ltac:(lia) ltac:(lia)) E0) as (P1 & P2).
    set (w := spacing a 0) in *. set (g := spacing a 1) in *.
    assert (Q : slope a f 0 * (coord a 1 - coord a 0) = f 1%Z - f 0%Z + (w / (w + g) * (f 1%Z - f 0%Z) - w * w / (g * (g + w)) * (f 2%Z - f 1%Z))).
    { unfold slope. simpl (0 =? 0)%Z. unfold mid_slope, gap, dd. change (1 - 1)%Z with 0%Z. change (0 + 1)%Z with 1%Z. change (1 + 1)%Z with 2%Z.
      assert (Ew : coord a 1 - coord a 0 = w) by reflexivity. assert (Eg : coord a 2 - coord a 1 = g) by reflexivity.
      rewrite Ew, Eg. field. lra. }
    rewrite Q. split; [exact P2|]. rewrite <- Rabs_Ropp. 
    match goal with |- Rabs ?e <= _ => match type of P1 with Rabs ?e' <= _ => replace e with e' by ring end end. exact P1.
  - assert (W : 0 < spacing a (npts a - 2)) by (apply (axis_gap Ha); lia). assert (G : 0 < spacing a (npts a - 3)) by (apply (axis_gap Ha); lia).
    destruct (Hr (npts a - 3)%Z ltac:(lia) ltac:(lia)) as (_ & R). replace (npts a - 3 + 1)%Z with (npts a - 2)%Z in R by lia.
    destruct (end_parts _ _ (f (npts a - 1)%Z - f (npts a - 2)%Z) (f (npts a - 2)%Z - f (npts a - 3)%Z) E W G R (HD (npts a - 1)%Z (npts a - 2)%Z ltac:(lia) ltac:(lia)) (HD (npts a - 2)%Z (npts a - 3)%Z ltac:(lia) ltac:(lia)) E0) as (P1 & P2).
    assert (Ew : coord a (npts a - 1) - coord a (npts a - 2) = spacing a (npts a - 2)) by (unfold spacing; repeat match goal with |- context[(?n - ?k + 1)%Z] => let v := eval compute in (k - 1)%Z in replace (n - k + 1)%Z with (n - v)%Z by lia end; reflexivity).
    assert (Eg : coord a (npts a - 2) - coord a (npts a - 3) = spacing a (npts a - 3)) by (unfold spacing; repeat match goal with |- context[(?n - ?k + 1)%Z] => let v := eval compute in (k - 1)%Z in replace (n - k + 1)%Z with (n - v)%Z by lia end; reflexivity).
    set (w := spacing a (npts a - 2)) in *. set (g := spacing a (npts a - 3)) in *.
    assert (Q : slope a f (npts a - 1) * (coord a (npts a - 2) - coord a (npts a - 1)) = - (f (npts a - 1)%Z - f (npts a - 2)%Z
       + (w / (w + g) * (f (npts a - 1)%Z - f (npts a - 2)%Z) - w * w / (g * (g + w)) * (f (npts a - 2)%Z - f (npts a - 3)%Z)))).
    { unfold slope. replace (npts a - 1 =? 0)%Z with false by lia. rewrite Z.eqb_refl.
      unfold mid_slope, gap, dd. replace (npts a - 2 - 1)%Z with (npts a - 3)%Z by lia.
      replace (npts a - 2 + 1)%Z with (npts a - 1)%Z by lia. replace (npts a - 3 + 1)%Z with (npts a - 2)%Z by lia.
      assert (Em : coord a (npts a - 2) - coord a (npts a - 1) = - w) by lra.
      rewrite Ew, Eg, Em. field. lra. }
    rewrite Q. split; [rewrite Rabs_Ropp; exact P2|].
    match goal with |- Rabs ?e <= _ => match type of P1 with Rabs ?e' <= _ => replace e with e' by ring end end. exact P1.
Qed.

Lemma continued_norm f E e n x d : (e = 0 /\ n = 1 \/ e = npts a - 1 /\ n = npts a - 2)%Z ->
  (forall i, (0 <= i < npts a)%Z -> Rabs (f i) <= E) -> coord a n <> coord a e ->
  x - coord a e = - d * (coord a n - coord a e) -> 0 <= d ->
  Rabs (f e + slope a f e * (x - coord a e)) <= (1 + (2 + 2 * rho) * d) * E /\
  Rabs (continued f e n x) <= (1 + (2 + 2 * rho) * d + 2 * rho * d ^ 2) * E.
Proof using Ha Hn Hr.
  intros Hen HE Hne Hx Hd. destruct (end_slope_bound f E e n Hen HE) as (P & Q).
  assert (F := HE e ltac:(lia)).
  set (S := slope a f e * (coord a n - coord a e)) in *.
  assert (L : Rabs (f e + slope a f e * (x - coord a e)) <= (1 + (2 + 2 * rho) * d) * E).
  { replace (f e + slope a f e * (x - coord a e)) with (f e + - d * S) by (rewrite Hx; unfold S; ring).
    eapply Rle_trans; [apply Rabs_triang|]. rewrite Rabs_mult, Rabs_Ropp, (Rabs_right d) by lra.
    assert (d * Rabs S <= d * ((2 + 2 * rho) * E)) by (apply Rmult_le_compat_l; auto). lra. }
  split; auto. unfold continued. fold S.
  replace ((x - coord a e) / (coord a n - coord a e)) with (- d) by (rewrite Hx; field; lra).
  eapply Rle_trans; [apply Rabs_triang|]. rewrite Rmult_plus_distr_r. apply Rplus_le_compat; auto.
  rewrite Rabs_mult. replace ((- d) ^ 2) with (d ^ 2) by ring. rewrite (Rabs_right (d ^ 2)) by (apply Rle_ge, pow2_ge_0).
  replace (2 * rho * d ^ 2 * E) with (2 * rho * E * d ^ 2) by ring. apply Rmult_le_compat_r; auto. apply pow2_ge_0.
Qed.

Lemma gain_ge_1 : 1 <= cubic_gain rho.
Proof using Ha Hn Hr.
  assert (R := rho_pos a Ha Hn rho Hr). unfold cubic_gain.
  assert (0 <= rho * rho / (2 * (1 + rho))) by (apply Rmult_le_pos; [nra|left; apply Rinv_0_lt_compat; lra]). lra.
Qed.

Lemma cub1_norm_any lin x f E : (forall i, (0 <= i < npts a)%Z -> Rabs (f i) <= E) ->
  Rabs (cub1 lin a x f) <= cubic_reach_gain lin rho (overshoot a x) * E.
Proof using Ha Hn Hr.
  intros HE. assert (E0 : 0 <= E) by (eapply Rle_trans; [apply Rabs_pos|apply (HE 0%Z); lia]).
  assert (D0 := overshoot_nonneg a x). set (d := overshoot a x) in *.
  assert (G := gain_ge_1). assert (RP := rho_pos a Ha Hn rho Hr).
  assert (X : forall y, Rabs y <= (1 + (2 + 2 * rho) * d + (if lin then 0 else 2 * rho * d ^ 2)) * E ->
     Rabs y <= cubic_reach_gain lin rho d * E).
  { intros y Hy. eapply Rle_trans; [exact Hy|]. apply Rmult_le_compat_r; auto. unfold cubic_reach_gain. lra. }
  assert (G0 := first_gap a Ha ltac:(lia)). assert (G1 := last_gap a Ha ltac:(lia)).
  assert (Ew0 : coord a 1 - coord a 0 = spacing a 0) by reflexivity.
  assert (Ew1 : coord a (npts a - 2) - coord a (npts a - 1) = - spacing a (npts a - 2))
    by (unfold spacing; replace (npts a - 2 + 1)%Z with (npts a - 1)%Z by lia; ring).
  destruct (overshoot_cases a Ha ltac:(lia) x) as [(Hx & Ed)|[Hx|Hx]].
  - fold d in Ed. rewrite Ed. unfold cubic_reach_gain.
    replace (cubic_gain rho + (2 + 2 * rho) * 0 + (if lin then 0 else 2 * rho * 0 ^ 2)) with (cubic_gain rho) by (destruct lin; ring).
    apply cub1_norm; auto.
  - fold d in Hx. destruct (continued_norm f E 0 1 x d (or_introl (conj eq_refl eq_refl)) HE ltac:(lra) ltac:(rewrite Ew0; lra) D0) as (P & Q).
    apply X. destruct lin.
    + rewrite (@cub1_low a Ha Hn true f x eq_refl) by nra. rewrite Rplus_0_r. exact P.
    + rewrite (cub1_below f x) by nra. exact Q.
  - fold d in Hx. destruct (continued_norm f E (npts a - 1) (npts a - 2) x d (or_intror (conj eq_refl eq_refl)) HE ltac:(lra) ltac:(rewrite Ew1; lra) D0) as (P & Q).
    apply X. destruct lin.
    + rewrite (@cub1_high a Ha Hn true f x eq_refl) by nra. rewrite Rplus_0_r. exact P.
    + rewrite (cub1_above f x) by nra. exact Q.
Qed.
End Gain.
End Ends.

Section CubAny.
Variable a : axis.
Hypothesis Ha : increasing_axis a.
Hypothesis Hn : (4 <= npts a)%Z.
Variables (x A B : R) (h D1 D2 D3 : R -> R) (M H : R).
Hypothesis HA : A <= coord a 0 /\ A <= x.
Hypothesis HB : coord a (npts a - 1) <= B /\ x <= B.
Hypothesis H1 : forall s, A <= s <= B -> derivable_pt_lim h s (D1 s).
Hypothesis H2 : forall s, A <= s <= B -> derivable_pt_lim D1 s (D2 s).
Hypothesis H3 : forall s, A <= s <= B -> derivable_pt_lim D2 s (D3 s).
Hypothesis HM : forall s, A <= s <= B -> Rabs (D3 s) <= M.
Hypothesis HH : spacing_at_most a H.
Let f (i : Z) : R := h (coord a i).

Lemma axis_in i : (0 <= i < npts a)%Z -> A <= coord a i <= B.
Proof using All. intros Hi. assert (Q := axis_range a i Ha Hi). lra. Qed.
Lemma any_slope_error i : (0 <= i < npts a)%Z -> Rabs (slope a f i - D1 (coord a i)) <= M / 3 * H ^ 2.
Proof using All.
  apply (slope_error a Ha Hn h D1 D2 D3 M H); auto; intros s Hs.
  - apply H1; lra.
  - apply H2; lra.
  - apply H3; lra.
  - apply HM; lra.
Qed.
Lemma any_M : 0 <= M.
Proof using All. eapply Rle_trans; [apply Rabs_pos|apply (HM (coord a 0)), axis_in; lia]. Qed.

Lemma abs3 w d : 0 <= d -> 0 <= w <= H -> Rabs (d * w) ^ 3 <= d ^ 3 * H ^ 3.
Proof using.
  clear. intros Hd Hw. rewrite Rabs_right by nra. rewrite Rpow_mult_distr.
  apply Rmult_le_compat_l; [apply pow_le; auto|]. apply pow_incr. lra.
Qed.

Lemma continued_error e n d : (0 <= e < npts a)%Z -> (0 <= n < npts a)%Z -> 0 < Rabs (coord a n - coord a e) <= H ->
  x - coord a e = - d * (coord a n - coord a e) -> 0 <= d ->
  Rabs (continued a f e n x - h x) <= M * H ^ 3 * (d / 3 + d ^ 2 / 2 + d ^ 3 / 6).
Proof using All.
  intros He Hn' W Hx Hd. assert (M0 := any_M).
  assert (S := any_slope_error e He).
  assert (R1 := taylor2 A B h D1 D2 D3 M (coord a e) (coord a n) H1 H2 H3 HM (axis_in e He) (axis_in n Hn')).
  assert (RX := taylor2 A B h D1 D2 D3 M (coord a e) x H1 H2 H3 HM (axis_in e He) ltac:(lra)).
  unfold continued. set (w := coord a n - coord a e) in *.
  assert (W0 : w <> 0) by (intros E; rewrite E, Rabs_R0 in W; lra).
  change (f e) with (h (coord a e)). change (f n) with (h (coord a n)).
  set (del := slope a f e - D1 (coord a e)) in *.
  set (r1 := h (coord a n) - _) in R1. set (rx := h x - _) in RX.
  replace (h (coord a e) + slope a f e * (x - coord a e) + (h (coord a n) - h (coord a e) - slope a f e * w) * ((x - coord a e) / w) ^ 2 - h x)
    with (- (d * (del * w)) + (r1 - del * w) * d ^ 2 - rx).
  2:{ unfold r1, rx, del. rewrite Hx. field. exact W0. }
  assert (P1 : Rabs (del * w) <= M / 3 * H ^ 3).
  { rewrite Rabs_mult. replace (M / 3 * H ^ 3) with (M / 3 * H ^ 2 * H) by ring. apply Rmult_le_compat; try apply Rabs_pos; lra. }
  assert (P2 : Rabs r1 <= M / 6 * H ^ 3).
  { eapply Rle_trans; [exact R1|]. apply Rmult_le_compat_l; [lra|]. apply pow_incr. lra. }
  assert (P3 : Rabs rx <= M / 6 * (d ^ 3 * H ^ 3)).
  { eapply Rle_trans; [exact RX|]. apply Rmult_le_compat_l; [lra|]. rewrite Hx.
    replace (Rabs (- d * w)) with (Rabs (d * Rabs w)); [apply abs3; lra|].
    rewrite !Rabs_mult, Rabs_Ropp, Rabs_Rabsolu. reflexivity. }
  assert (D2p := pow2_ge_0 d).
  unfold Rminus. eapply Rle_trans; [apply Rabs_triang|]. rewrite Rabs_Ropp.
  eapply Rle_trans; [apply Rplus_le_compat_r, Rabs_triang|]. rewrite Rabs_Ropp, !Rabs_mult, (Rabs_right d), (Rabs_right (d ^ 2)) by lra.
  assert (P4 : Rabs (r1 + - (del * w)) <= M / 6 * H ^ 3 + M / 3 * H ^ 3) by (eapply Rle_trans; [apply Rabs_triang|]; rewrite Rabs_Ropp; lra).
  assert (Q1 : d * (Rabs del * Rabs w) <= d * (M / 3 * H ^ 3)) by (apply Rmult_le_compat_l; auto; rewrite <- Rabs_mult; auto).
  assert (Q2 := Rmult_le_compat_r (d ^ 2) _ _ D2p P4).
  eapply Rle_trans; [apply Rplus_le_compat; [apply Rplus_le_compat; [exact Q1|exact Q2]|exact P3]|].
  right. field.
Qed.

Lemma cub1_error_any : Rabs (cub1 false a x f - h x) <= M * H ^ 3 * cubic_miss (overshoot a x).
Proof using All.
  assert (D0 := overshoot_nonneg a x). set (d := overshoot a x) in *. assert (M0 := any_M).
  assert (G0 := first_gap a Ha ltac:(lia)). assert (G1 := last_gap a Ha ltac:(lia)).
  assert (W0 := HH 0%Z ltac:(lia)). assert (W1 := HH (npts a - 2)%Z ltac:(lia)).
  assert (Ew0 : coord a 1 - coord a 0 = spacing a 0) by reflexivity.
  assert (Ew1 : coord a (npts a - 2) - coord a (npts a - 1) = - spacing a (npts a - 2))
    by (unfold spacing; replace (npts a - 2 + 1)%Z with (npts a - 1)%Z by lia; ring).
  assert (K : 0 <= M * H ^ 3) by (apply Rmult_le_pos; auto; apply pow_le; lra).
  assert (X : forall y, Rabs y <= M * H ^ 3 * (d / 3 + d ^ 2 / 2 + d ^ 3 / 6) -> Rabs y <= M * H ^ 3 * cubic_miss d)
    by (intros y Hy; unfold cubic_miss; lra).
  destruct (overshoot_cases a Ha ltac:(lia) x) as [(Hx & Ed)|[Hx|Hx]]; fold d in Hx.
  - fold d in Ed. rewrite Ed. unfold cubic_miss. replace (M * H ^ 3 * _) with (7 / 48 * M * H ^ 3) by field.
    apply (cub1_error a Ha Hn h D1 D2 D3 M H); auto; intros s Hs.
    + apply H1; lra.
    + apply H2; lra.
    + apply H3; lra.
    + apply HM; lra.
  - apply X. rewrite (cub1_below a Ha Hn) by nra. apply continued_error; try lia; auto.
    + rewrite Ew0, Rabs_right by lra. lra.
    + rewrite Ew0. lra.
  - apply X. rewrite (cub1_above a Ha Hn) by nra. apply continued_error; try lia; auto.
    + rewrite Ew1, Rabs_Ropp, Rabs_right by lra. lra.
    + rewrite Ew1. lra.
Qed.

(** Beyond the ends with linearised extrapolation. *)
Variables (E1 E2 : R -> R) (N : R).
Hypothesis J1 : forall s, A <= s <= B -> derivable_pt_lim h s (E1 s).
Hypothesis J2 : forall s, A <= s <= B -> derivable_pt_lim E1 s (E2 s).
Hypothesis JN : forall s, A <= s <= B -> Rabs (E2 s) <= N.

Lemma tangent_error e d w : (0 <= e < npts a)%Z -> Rabs (x - coord a e) = d * w -> 0 <= d -> 0 < w <= H ->
  Rabs (f e + slope a f e * (x - coord a e) - h x) <= M * H ^ 3 * (d / 3) + N * H ^ 2 * (d ^ 2 / 2).
Proof using All.
  intros He Hx Hd W. assert (M0 := any_M).
  assert (N0 : 0 <= N) by (eapply Rle_trans; [apply Rabs_pos|apply (JN x); lra]).
  assert (S := any_slope_error e He).
  assert (RX := taylor1 A B h E1 E2 N (coord a e) x J1 J2 JN (axis_in e He) ltac:(lra)).
  assert (U : E1 (coord a e) = D1 (coord a e)) by (apply (uniqueness_limite h (coord a e)); [apply J1|apply H1]; apply axis_in; auto).
  rewrite U in RX. change (f e) with (h (coord a e)). set (rx := h x - _) in RX. set (del := slope a f e - _) in S.
  replace (h (coord a e) + slope a f e * (x - coord a e) - h x) with (del * (x - coord a e) + - rx) by (unfold del, rx; ring).
  eapply Rle_trans; [apply Rabs_triang|]. rewrite Rabs_Ropp, Rabs_mult, Hx. apply Rplus_le_compat.
  - replace (M * H ^ 3 * (d / 3)) with (M / 3 * H ^ 2 * (d * H)) by field. apply Rmult_le_compat; try apply Rabs_pos; auto.
    + nra.
    + apply Rmult_le_compat_l; lra.
  - eapply Rle_trans; [exact RX|]. rewrite <- pow2_abs, Hx. 
    replace (N * H ^ 2 * (d ^ 2 / 2)) with (N / 2 * (d * H) ^ 2) by field. apply Rmult_le_compat_l; [lra|].
    apply pow_incr. split; [nra|]. apply Rmult_le_compat_l; lra.
Qed.

Lemma cub1_error_any_lin : let d := overshoot a x in
  Rabs (cub1 true a x f - h x) <= M * H ^ 3 * (7 / 48 + d / 3) + N * H ^ 2 * (d ^ 2 / 2).
Proof using All.
  intros d. assert (D0 := overshoot_nonneg a x). fold d in D0. assert (M0 := any_M).
  assert (N0 : 0 <= N) by (eapply Rle_trans; [apply Rabs_pos|apply (JN x); lra]).
  assert (G0 := first_gap a Ha ltac:(lia)). assert (G1 := last_gap a Ha ltac:(lia)).
  assert (W0 := HH 0%Z ltac:(lia)). assert (W1 := HH (npts a - 2)%Z ltac:(lia)).
  assert (K : 0 <= M * H ^ 3) by (apply Rmult_le_pos; auto; apply pow_le; lra).
  assert (X : forall y, Rabs y <= M * H ^ 3 * (d / 3) + N * H ^ 2 * (d ^ 2 / 2) ->
     Rabs y <= M * H ^ 3 * (7 / 48 + d / 3) + N * H ^ 2 * (d ^ 2 / 2)) by (intros y Hy; lra).
  destruct (overshoot_cases a Ha ltac:(lia) x) as [(Hx & Ed)|[Hx|Hx]]; fold d in Hx.
  - fold d in Ed. rewrite Ed. replace (M * H ^ 3 * (7 / 48 + 0 / 3) + N * H ^ 2 * (0 ^ 2 / 2)) with (7 / 48 * M * H ^ 3) by field.
    apply (cub1_error a Ha Hn h D1 D2 D3 M H); auto; intros s Hs.
    + apply H1; lra.
    + apply H2; lra.
    + apply H3; lra.
    + apply HM; lra.
  - apply X. rewrite (@cub1_low a Ha Hn true f x eq_refl) by nra. apply (tangent_error 0 d (spacing a 0)); try lia; auto.
    replace (x - coord a 0) with (- (d * spacing a 0)) by lra. rewrite Rabs_Ropp, Rabs_right by nra. reflexivity.
  - apply X. rewrite (@cub1_high a Ha Hn true f x eq_refl) by nra. apply (tangent_error (npts a - 1) d (spacing a (npts a - 2))); try lia; auto.
    replace (x - coord a (npts a - 1)) with (d * spacing a (npts a - 2)) by lra. rewrite Rabs_right by nra. reflexivity.
Qed.
End CubAny.
