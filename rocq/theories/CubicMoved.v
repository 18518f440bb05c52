(** The multicubic interpolant as a function of the grid coordinates (exact arithmetic). *)
From Coq Require Import Reals Lra PeanoNat Bool ZifyBool ZifyNat.
From Verif Require Import Base Ops Spec CoreLemmas TensorLemmas SpecReal RTensor R1D RChar Interpolators REval RProofs RProofs2 RProofs3.
From Verif Require Import SpecApprox Approx1D Approx Shape SpecExtrap Extrap1D Extrap SpecSlope CubicSlope SpecMoved Moved.
Unset Implicit Arguments.
Open Scope R_scope.

(** The slope at a node times a cell width, as a function of the ratio of the cell widths. *)
Definition scaled_slope (dp dm r : R) : R := (dp + r * r * dm) / (1 + r).

Lemma scaled_moved dp dm g h g' h' L d rho : 0 < g -> 0 < h -> 0 < g' -> 0 < h' -> 0 <= L -> 0 <= d ->
  Rabs dp <= L * h -> Rabs dm <= L * g -> Rabs (h - h') <= 2 * d -> Rabs (g - g') <= 2 * d ->
  h <= rho * g -> h' <= rho * g' ->
  Rabs (scaled_slope dp dm (h / g) - scaled_slope dp dm (h' / g')) <= 2 * (rho * (3 + rho) / (1 + rho)) * (L * d).
Proof.
  intros G H G' H' L0 D0 Hp Hm Dh Dg Rh Rh'. unfold scaled_slope.
  assert (R0 : 0 < rho) by nra.
  set (r' := h' / g').
  assert (R1 : 0 < r' <= rho).
  { unfold r'. split; [apply Rmult_lt_0_compat; auto; apply Rinv_0_lt_compat; auto|].
    apply Rmult_le_reg_r with g'; auto. unfold Rdiv. rewrite Rmult_assoc, Rinv_l, Rmult_1_r by lra. exact Rh'. }
  assert (E : (dp + h / g * (h / g) * dm) / (1 + h / g) - (dp + r' * r' * dm) / (1 + r')
    = - ((h' * g - h * g') / ((g + h) * (g' + h'))) * (- dp + dm * (h / g + r' + h / g * r'))).
  { unfold r'. field. repeat split; try lra; nra. }
  rewrite E. clear E. rewrite Rabs_mult, Rabs_Ropp.
  assert (Q1 : Rabs ((h' * g - h * g') / ((g + h) * (g' + h'))) <= 2 * d / (g + h)).
  { assert (P : 0 < (g + h) * (g' + h')) by (apply Rmult_lt_0_compat; lra).
    unfold Rdiv at 1. rewrite Rabs_mult, (Rabs_right (/ _)) by (left; apply Rinv_0_lt_compat; auto).
    apply Rmult_le_reg_r with ((g + h) * (g' + h')); auto. rewrite Rmult_assoc, Rinv_l, Rmult_1_r by lra.
    replace (2 * d / (g + h) * ((g + h) * (g' + h'))) with (2 * d * (g' + h')) by (field; lra).
    apply Rabs_le_inv in Dh, Dg. apply Rabs_le. nra. }
  assert (Q2 : Rabs (- dp + dm * (h / g + r' + h / g * r')) <= L * (2 * h + (g + h) * r')).
  { eapply Rle_trans; [apply Rabs_triang|]. rewrite Rabs_Ropp, Rabs_mult.
    assert (S : 0 < h / g) by (apply Rmult_lt_0_compat; auto; apply Rinv_0_lt_compat; auto).
    rewrite (Rabs_right (h / g + r' + h / g * r')) by nra.
    replace (L * (2 * h + (g + h) * r')) with (L * h + L * g * (h / g + r' + h / g * r')) by (field; lra).
    apply Rplus_le_compat; auto. apply Rmult_le_compat_r; auto. nra. }
  eapply Rle_trans; [apply Rmult_le_compat; [apply Rabs_pos|apply Rabs_pos|exact Q1|exact Q2]|].
  replace (2 * d / (g + h) * (L * (2 * h + (g + h) * r'))) with (2 * (2 * h / (g + h) + r') * (L * d)) by (field; lra).
  apply Rmult_le_compat_r; [apply Rmult_le_pos; auto|]. apply Rmult_le_compat_l; [lra|].
  assert (Q3 : 2 * h / (g + h) <= 2 * rho / (1 + rho)).
  { apply Rmult_le_reg_r with ((g + h) * (1 + rho)); [apply Rmult_lt_0_compat; lra|].
    replace (2 * h / (g + h) * ((g + h) * (1 + rho))) with (2 * h * (1 + rho)) by (field; lra).
    replace (2 * rho / (1 + rho) * ((g + h) * (1 + rho))) with (2 * rho * (g + h)) by (field; lra). nra. }
  replace (rho * (3 + rho) / (1 + rho)) with (2 * rho / (1 + rho) + rho) by (field; lra). lra.
Qed.

Lemma slope_right a f i : increasing_axis a -> (1 <= i <= npts a - 2)%Z ->
  spacing a i * slope a f i = scaled_slope (f (i + 1)%Z - f i) (f i - f (i - 1)%Z) (spacing a i / spacing a (i - 1)).
Proof.
  intros Ha Hi. assert (G : 0 < gap (coord a) i) by (apply (axis_gap Ha); lia).
  assert (G' : 0 < gap (coord a) (i - 1)) by (apply (axis_gap Ha); lia).
  unfold slope. destruct (Z.eqb_spec i 0); [lia|]. destruct (Z.eqb_spec i (npts a - 1)); [lia|].
  unfold scaled_slope, mid_slope, dd, spacing, gap in *. replace (i - 1 + 1)%Z with i in * by lia. field. lra.
Qed.
Lemma slope_left a f i : increasing_axis a -> (1 <= i <= npts a - 2)%Z ->
  spacing a (i - 1) * slope a f i = scaled_slope (f i - f (i - 1)%Z) (f (i + 1)%Z - f i) (spacing a (i - 1) / spacing a i).
Proof.
  intros Ha Hi. assert (G : 0 < gap (coord a) i) by (apply (axis_gap Ha); lia).
  assert (G' : 0 < gap (coord a) (i - 1)) by (apply (axis_gap Ha); lia).
  unfold slope. destruct (Z.eqb_spec i 0); [lia|]. destruct (Z.eqb_spec i (npts a - 1)); [lia|].
  unfold scaled_slope, mid_slope, dd, spacing, gap in *. replace (i - 1 + 1)%Z with i in * by lia. field. lra.
Qed.
Lemma slope_first a f : increasing_axis a -> (4 <= npts a)%Z ->
  spacing a 0 * slope a f 0 = 2 * (f 1%Z - f 0%Z) - spacing a (1 - 1) * slope a f 1.
Proof.
  intros Ha Hn. assert (G : 0 < gap (coord a) 0) by (apply (axis_gap Ha); lia).
  change (1 - 1)%Z with 0%Z. unfold slope. change (0 =? 0)%Z with true. change (1 =? 0)%Z with false. cbv iota.
  destruct (Z.eqb_spec 1 (npts a - 1)); [lia|]. set (m := mid_slope (coord a) f 1).
  unfold dd, spacing, gap in *. change (0 + 1)%Z with 1%Z in *. field. lra.
Qed.
Lemma slope_last a f : increasing_axis a -> (4 <= npts a)%Z ->
  spacing a (npts a - 2) * slope a f (npts a - 1)
  = 2 * (f (npts a - 1)%Z - f (npts a - 2)%Z) - spacing a (npts a - 2) * slope a f (npts a - 2).
Proof.
  intros Ha Hn. assert (G : 0 < gap (coord a) (npts a - 2)) by (apply (axis_gap Ha); lia).
  unfold slope. destruct (Z.eqb_spec (npts a - 1) 0); [lia|]. destruct (Z.eqb_spec (npts a - 2) 0); [lia|].
  rewrite Z.eqb_refl. destruct (Z.eqb_spec (npts a - 2) (npts a - 1)); [lia|]. set (m := mid_slope (coord a) f (npts a - 2)).
  unfold dd, spacing, gap in *. replace (npts a - 2 + 1)%Z with (npts a - 1)%Z in * by lia. field. lra.
Qed.

Section One.
Variables (a b : axis) (d rho L : R) (f : Z -> R).
Hypotheses (Ga : good_axis 4 a) (Gb : good_axis 4 b) (Hd : nodes_within d a b).
Hypotheses (Ra : spacing_ratio_at_most a rho) (Rb : spacing_ratio_at_most b rho).
Hypothesis HL : forall i, (0 <= i)%Z -> (i + 1 < npts a)%Z -> Rabs (f (i + 1)%Z - f i) <= L * spacing a i.

Lemma d_nonneg : 0 <= d.
Proof using Ga Hd. apply (moved_nonneg d a b); auto. destruct Ga; lia. Qed.
Lemma L_nonneg : 0 <= L.
Proof using Ga HL.
  assert (Q := HL 0%Z ltac:(lia) ltac:(destruct Ga; lia)). assert (0 < spacing a 0) by (apply (axis_gap (proj1 Ga)); destruct Ga; lia).
  assert (P := Rabs_pos (f (0 + 1)%Z - f 0%Z)). nra.
Qed.

Lemma gap_moved i : (0 <= i)%Z -> (i + 1 < npts a)%Z -> Rabs (spacing a i - spacing b i) <= 2 * d.
Proof using All.
  intros H1 H2. assert (A := proj2 Hd i ltac:(lia)). assert (B := proj2 Hd (i + 1)%Z ltac:(lia)).
  apply Rabs_le_inv in A, B. unfold spacing. apply Rabs_le. lra.
Qed.

Let K := 2 * (rho * (3 + rho) / (1 + rho)) * (L * d).

Lemma right_moved i : (1 <= i <= npts a - 2)%Z -> Rabs (spacing a i * slope a f i - spacing b i * slope b f i) <= K.
Proof using All.
  intros Hi. assert (En := proj1 Hd). destruct Ga as (Ha & _). destruct Gb as (Hb & _).
  rewrite (slope_right a f i Ha Hi), (slope_right b f i Hb) by lia.
  assert (Q := HL (i - 1)%Z ltac:(lia) ltac:(lia)). replace (i - 1 + 1)%Z with i in Q by lia.
  apply scaled_moved; try (apply (axis_gap Ha); lia); try (apply (axis_gap Hb); lia); auto.
  - apply L_nonneg.
  - apply d_nonneg.
  - apply HL; lia.
  - apply gap_moved; lia.
  - apply gap_moved; lia.
  - destruct (Ra (i - 1)%Z ltac:(lia) ltac:(lia)) as (_ & R). replace (i - 1 + 1)%Z with i in R by lia. exact R.
  - destruct (Rb (i - 1)%Z ltac:(lia) ltac:(lia)) as (_ & R). replace (i - 1 + 1)%Z with i in R by lia. exact R.
Qed.
Lemma left_moved i : (1 <= i <= npts a - 2)%Z -> Rabs (spacing a (i - 1) * slope a f i - spacing b (i - 1) * slope b f i) <= K.
Proof using All.
  intros Hi. assert (En := proj1 Hd). destruct Ga as (Ha & _). destruct Gb as (Hb & _).
  rewrite (slope_left a f i Ha Hi), (slope_left b f i Hb) by lia.
  assert (Q := HL (i - 1)%Z ltac:(lia) ltac:(lia)). replace (i - 1 + 1)%Z with i in Q by lia.
  apply scaled_moved; try (apply (axis_gap Ha); lia); try (apply (axis_gap Hb); lia); auto.
  - apply L_nonneg.
  - apply d_nonneg.
  - apply HL; lia.
  - apply gap_moved; lia.
  - apply gap_moved; lia.
  - destruct (Ra (i - 1)%Z ltac:(lia) ltac:(lia)) as (R & _). replace (i - 1 + 1)%Z with i in R by lia. exact R.
  - destruct (Rb (i - 1)%Z ltac:(lia) ltac:(lia)) as (R & _). replace (i - 1 + 1)%Z with i in R by lia. exact R.
Qed.

(** The same cell and the same position in the cell. *)
Lemma cell_moved j t x y : (0 <= j <= npts a - 2)%Z -> 0 <= t <= 1 -> local_coord a y j = t -> local_coord b x j = t ->
  Rabs (herm_piece a f j y - herm_piece b f j x) <= K / 4.
Proof using All.
  intros Hj T Ey Ex. assert (En := proj1 Hd). assert (Ha := proj1 Ga). assert (Hb := proj1 Gb). assert (Na := proj2 Ga).
  rewrite (herm_basis a f j y Ha Hj), (herm_basis b f j x Hb) by lia. cbv zeta. rewrite Ey, Ex.
  assert (HP : 0 <= t * (1 - t) <= / 4) by (assert (S := Rle_0_sqr (t - / 2)); unfold Rsqr in S; nra).
  set (u := spacing a j * slope a f j). set (u' := spacing b j * slope b f j).
  set (v := spacing a j * slope a f (j + 1)). set (v' := spacing b j * slope b f (j + 1)).
  match goal with |- Rabs ?e <= _ => replace e with (t * (1 - t) * ((1 - t) * (u - u') - t * (v - v'))) by ring end.
  rewrite Rabs_mult, (Rabs_right (t * (1 - t))) by lra.
  assert (B : Rabs ((1 - t) * (u - u') - t * (v - v')) <= K).
  { assert (Bound : forall p q, Rabs p <= K -> Rabs q <= K -> Rabs ((1 - t) * p - t * q) <= K).
    { intros p q P Q. apply Rabs_le_inv in P, Q. apply Rabs_le. nra. }
    assert (L1 : (1 <= j + 1 <= npts a - 2)%Z -> Rabs (v - v') <= K).
    { intros H. assert (Q := left_moved (j + 1) H). replace (j + 1 - 1)%Z with j in Q by lia. exact Q. }
    assert (R1 : (1 <= j <= npts a - 2)%Z -> Rabs (u - u') <= K) by (intros H; apply right_moved; auto).
    destruct (Z.eq_dec j 0) as [J0|J0]; [|destruct (Z.eq_dec j (npts a - 2)) as [J1|J1]].
    - assert (Q := L1 ltac:(lia)). replace (u - u') with (- (v - v')).
      + apply Bound; auto. rewrite Rabs_Ropp. exact Q.
      + unfold u, u', v, v'. subst j. rewrite (slope_first a f Ha Na), (slope_first b f Hb) by lia.
        change (1 - 1)%Z with 0%Z. change (0 + 1)%Z with 1%Z. ring.
    - assert (Q := R1 ltac:(lia)). replace (v - v') with (- (u - u')).
      + apply Bound; auto. rewrite Rabs_Ropp. exact Q.
      + unfold u, u', v, v'. assert (S := slope_last a f Ha Na). assert (S' := slope_last b f Hb ltac:(lia)).
        rewrite <- En in S'. subst j. replace (npts a - 2 + 1)%Z with (npts a - 1)%Z by lia. rewrite S, S'. ring.
    - apply Bound; [apply R1|apply L1]; lia. }
  assert (P := Rabs_pos ((1 - t) * (u - u') - t * (v - v'))). nra.
Qed.

Lemma cub1_moved lin x z : coord a 0 <= x <= coord a (npts a - 1) -> coord b 0 <= z <= coord b (npts b - 1) ->
  Rabs (cub1 lin a x f - cub1 lin b z f) <= L * (cubic_slope_gain rho * Rabs (x - z) + cubic_move_gain rho * d).
Proof using All.
  intros Xa Xb. assert (En := proj1 Hd). assert (Ha := proj1 Ga). assert (Hb := proj1 Gb). assert (Na := proj2 Ga).
  destruct (@in_cell_ex b ltac:(lia) z) as (j & Hj). assert (J := proj1 Hj).
  assert (Hc : coord b j <= z <= coord b (j + 1)).
  { destruct Hj as (J1 & J2 & J3). split; [destruct J2 as [-> |]; lra|].
    destruct J3 as [-> |]; [|lra]. replace (npts b - 2 + 1)%Z with (npts b - 1)%Z by lia. lra. }
  destruct (local_point b Hb z j Hj Hc) as (W & T & _). set (t := local_coord b z j) in *.
  assert (Gp : 0 < coord a (j + 1) - coord a j) by (apply (axis_gap Ha); lia).
  assert (Gq : 0 < coord b (j + 1) - coord b j) by (apply (axis_gap Hb); lia).
  set (y := (1 - t) * coord a j + t * coord a (j + 1)).
  assert (Ty : local_coord a y j = t) by (unfold local_coord, y; field; lra).
  assert (Yc : coord a j <= y <= coord a (j + 1)) by (unfold y; nra).
  assert (Hy : in_cell a y j) by (split; [lia|]; split; right; apply Yc).
  assert (Ya : coord a 0 <= y <= coord a (npts a - 1)).
  { assert (A1 := axis_range a j Ha ltac:(lia)). assert (A2 := axis_range a (j + 1) Ha ltac:(lia)). lra. }
  assert (Dxy : Rabs (x - y) <= Rabs (x - z) + d).
  { assert (Ex : z = (1 - t) * coord b j + t * coord b (j + 1)) by (unfold t, local_coord; field; lra).
    assert (D1 := proj2 Hd j ltac:(lia)). assert (D2 := proj2 Hd (j + 1)%Z ltac:(lia)). apply Rabs_le_inv in D1, D2.
    assert (D3 : Rabs (z - y) <= d) by (rewrite Ex; unfold y; apply Rabs_le; nra).
    replace (x - y) with ((x - z) + (z - y)) by ring. eapply Rle_trans; [apply Rabs_triang|]. lra. }
  assert (Sa : forall i, (0 <= i <= npts a - 2)%Z -> Rabs (dd (coord a) f i) <= L).
  { intros i Hi. assert (Gi : 0 < gap (coord a) i) by (apply (axis_gap Ha); lia).
    unfold dd. fold (gap (coord a) i). unfold Rdiv. rewrite Rabs_mult.
    assert (I : 0 < / gap (coord a) i) by (apply Rinv_0_lt_compat; auto).
    rewrite (Rabs_right (/ gap (coord a) i)) by lra.
    apply Rmult_le_reg_r with (gap (coord a) i); auto. rewrite Rmult_assoc, Rinv_l, Rmult_1_r by lra. apply HL; lia. }
  assert (B1 := cub1_lipschitz a f rho L Ha Na Ra Sa lin y x (or_introl (conj Ya Xa))).
  assert (B2 : Rabs (cub1 lin a y f - cub1 lin b z f) <= K / 4).
  { rewrite (@cub1_herm a Ha Na lin f y j Hy (or_introl Ya)), (@cub1_herm b Hb ltac:(lia) lin f z j Hj (or_introl Xb)).
    apply (cell_moved j t z y); auto; lia. }
  assert (R1 := ratio_one a rho Ha Na Ra). assert (GR := gain_range rho ltac:(lra)).
  assert (L0 := L_nonneg). assert (D0 := d_nonneg).
  assert (B3 : cubic_slope_gain rho * L * Rabs (x - y) <= cubic_slope_gain rho * (L * (Rabs (x - z) + d))).
  { rewrite Rmult_assoc. apply Rmult_le_compat_l; [lra|]. apply Rmult_le_compat_l; auto. }
  replace (L * (cubic_slope_gain rho * Rabs (x - z) + cubic_move_gain rho * d)) with (cubic_slope_gain rho * (L * (Rabs (x - z) + d)) + K / 4)
    by (unfold cubic_move_gain, cubic_slope_gain, K; field; lra).
  replace (cub1 lin a x f - cub1 lin b z f) with ((cub1 lin a x f - cub1 lin a y f) + (cub1 lin a y f - cub1 lin b z f)) by ring.
  eapply Rle_trans; [apply Rabs_triang|]. lra.
Qed.
End One.

(** ** All axes *)
Lemma cub_moved_val lin rho axes : Forall (good_axis 4) axes -> forall axes' x z V d L, Forall (good_axis 4) axes' ->
  (forall a, In a axes -> spacing_ratio_at_most a rho) -> (forall a, In a axes' -> spacing_ratio_at_most a rho) ->
  moved_grid d axes axes' -> inside_grid axes x -> inside_grid axes' z ->
  (forall k idx, (k < length axes)%nat -> in_shape (map npts axes) idx -> in_shape (map npts axes) (next_along k idx) ->
    Rabs (V (next_along k idx) - V idx) <= L k * spacing (nth k axes no_axis) (nth k idx 0%Z)) ->
  Rabs (tenL (ops1 (cub1 lin) axes x) V - tenL (ops1 (cub1 lin) axes' z) V)
    <= cubic_gain rho ^ (length axes - 1) * sum_upto (length axes)
         (fun k => L k * (cubic_slope_gain rho * Rabs (nth k x 0 - nth k z 0) + cubic_move_gain rho * d k)).
Proof.
  induction 1 as [|a axes Ga G IH]; intros axes' x z V d L G' Hr Hr' (HL & HM) Hx Hx' HV.
  - destruct axes'; [|discriminate]. destruct Hx as (Lx & _). destruct x; [|discriminate].
    destruct Hx' as (Lz & _). destruct z; [|discriminate]. cbn [ops1 combine map tenL].
    rewrite Rminus_diag_eq, Rabs_R0 by auto. unfold sum_upto. simpl. lra.
  - destruct axes' as [|b axes']; [discriminate|]. destruct x as [|x0 x]; [destruct Hx; discriminate|].
    destruct z as [|z0 z]; [destruct Hx'; discriminate|].
    inversion G' as [|? ? Gb G'']; subst. assert (Hab := HM 0%nat a b eq_refl eq_refl).
    apply inside_cons in Hx as (X0 & Hx). apply inside_cons in Hx' as (X0' & Hx'). assert (Lx := proj1 Hx).
    simpl in HL. injection HL as HL.
    assert (Ra := Hr a (or_introl eq_refl)). assert (Rb := Hr' b (or_introl eq_refl)).
    assert (Hr0 : forall c, In c axes -> spacing_ratio_at_most c rho) by (intros c Hc; apply Hr; right; auto).
    assert (Hr0' : forall c, In c axes' -> spacing_ratio_at_most c rho) by (intros c Hc; apply Hr'; right; auto).
    unfold ops1. cbn [combine map tenL fst snd]. fold (ops1 (cub1 lin) axes x). fold (ops1 (cub1 lin) axes' z).
    set (w := fun i => tenL (ops1 (cub1 lin) axes x) (fun idx => V (i :: idx))).
    set (w' := fun i => tenL (ops1 (cub1 lin) axes' z) (fun idx => V (i :: idx))).
    set (D := cubic_gain rho ^ length axes).
    replace (length (a :: axes) - 1)%nat with (length axes) by (simpl; lia). fold D.
    cbn [length]. rewrite sum_upto_S. cbn [nth].
    set (rest := sum_upto (length axes) (fun k => L (S k) * (cubic_slope_gain rho * Rabs (nth k x 0 - nth k z 0) + cubic_move_gain rho * d (S k)))).
    assert (S0 : forall i, (0 <= i)%Z -> (i + 1 < npts a)%Z -> Rabs (w (i + 1)%Z - w i) <= (D * L 0%nat) * spacing a i).
    { intros i H1 H2. unfold w. rewrite (tenL_minus _ _ _ _ (good_cub lin x Lx G)). rewrite Rmult_assoc.
      apply tenL_norm; [apply cub_ops_norm; auto|].
      intros idx Hs. assert (Q := HV 0%nat (i :: idx)). unfold next_along in Q. simpl in Q. apply Q; [lia| |];
          apply in_shape_cons; split; auto; lia. }
    assert (B1 := cub1_moved a b (d 0%nat) rho (D * L 0%nat) w Ga Gb Hab Ra Rb S0 lin x0 z0 X0 X0').
    assert (B2 : Rabs (cub1 lin b z0 w - cub1 lin b z0 w') <= D * rest).
    { rewrite (lf_minus (npts b)) by (apply cub1_lf; apply Gb).
      destruct (Nat.eq_dec (length axes) 0) as [Z0|Z0].
      - destruct axes; [|discriminate]. destruct axes'; [|discriminate].
        destruct x; [|discriminate]. unfold rest, sum_upto. simpl. destruct Hx' as (Lz & _). destruct z; [|discriminate].
        destruct (cub1_lf (proj1 Gb) (proj2 Gb) lin z0) as (P1 & P2 & P3).
        rewrite (P3 _ (fun i => 0 * w i)) by (intros; unfold w, w'; simpl; ring). rewrite P2. rewrite Rmult_0_l, Rabs_R0. lra.
      - assert (E0 : forall i, (0 <= i < npts b)%Z -> Rabs (w i - w' i) <= cubic_gain rho ^ (length axes - 1) * rest).
        { intros i Hi. unfold w, w', rest. apply (IH axes' x z (fun idx => V (i :: idx)) (fun k => d (S k)) (fun k => L (S k))); auto.
          - split; [lia|]. intros k a0 b0 Hka Hkb. apply (HM (S k) a0 b0 Hka Hkb).
          - intros k idx Hk H1 H2. assert (Q := HV (S k) (i :: idx)). unfold next_along in *. simpl in Q.
            assert (En := proj1 Hab). apply Q; [lia| |]; apply in_shape_cons; split; auto; lia. }
        eapply Rle_trans; [apply (cub1_norm b (proj1 Gb) (proj2 Gb) rho Rb lin z0 _ _ X0' E0)|].
        unfold D. replace (length axes) with (S (length axes - 1)) at 2 by lia. cbn [pow]. right. ring. }
    replace (cub1 lin a x0 w - cub1 lin b z0 w') with ((cub1 lin a x0 w - cub1 lin b z0 w) + (cub1 lin b z0 w - cub1 lin b z0 w')) by ring.
    eapply Rle_trans; [apply Rabs_triang|]. lra.
Qed.

Theorem moved_grid_cubic c c' lin vals axes axes' dom dom' eval eval' x z d L rho :
  multicubic c lin vals axes dom eval -> multicubic c' lin vals axes' dom' eval' -> moved_grid d axes axes' ->
  inside_grid axes x -> inside_grid axes' z ->
  (forall a, In a axes -> spacing_ratio_at_most a rho) -> (forall a, In a axes' -> spacing_ratio_at_most a rho) ->
  (forall k, (k < length axes)%nat -> data_slope_at_most axes vals k (L k)) ->
  exists r r', eval x = Ok r /\ eval' z = Ok r' /\
    Rabs (r - r') <= cubic_gain rho ^ (length axes - 1) * sum_upto (length axes)
         (fun k => L k * (cubic_slope_gain rho * Rabs (nth k x 0 - nth k z 0) + cubic_move_gain rho * d k)).
Proof.
  intros H H' HM Hx Hx' Hr Hr' HL. destruct (multicubic_value H) as (G & Lv & E). destruct (multicubic_value H') as (G' & Lv' & E').
  do 2 eexists. split; [apply E; [apply Hx|eapply multicubic_inside; eauto]|].
  split; [apply E'; [apply Hx'|eapply multicubic_inside; eauto]|].
  rewrite (moved_npts d axes axes' HM). apply cub_moved_val; auto.
  intros k idx Hk. apply (HL k Hk).
Qed.

(** ** The same for multilinear interpolation: each point inside its own grid *)
Lemma lin1_moved_points a b d x z v L : good_axis 2 a -> good_axis 2 b -> nodes_within d a b ->
  (forall i, (0 <= i)%Z -> (i + 1 < npts a)%Z -> Rabs (v (i + 1)%Z - v i) <= L * spacing a i) ->
  coord b 0 <= z <= coord b (npts b - 1) -> Rabs (lin1 a x v - lin1 b z v) <= L * (Rabs (x - z) + d).
Proof.
  intros Ga Gb Hd HL Hz. destruct (lin1_moved a b d Ga Gb Hd z v) as (y & -> & Hy).
  rewrite (overshoot_inside b z) in Hy by (apply Gb || auto).
  assert (L0 : 0 <= L).
  { assert (Q := HL 0%Z ltac:(lia) ltac:(destruct Ga; lia)). assert (0 < spacing a 0) by (apply (axis_gap (proj1 Ga)); destruct Ga; lia).
    assert (P := Rabs_pos (v (0 + 1)%Z - v 0%Z)). nra. }
  eapply Rle_trans; [apply (lin1_slope a v L y x Ga HL)|]. apply Rmult_le_compat_l; auto.
  replace (x - y) with ((x - z) - (y - z)) by ring. eapply Rle_trans; [apply Rabs_triang|]. rewrite Rabs_Ropp. lra.
Qed.

Lemma lin_moved_val axes : Forall (good_axis 2) axes -> forall axes' x z V d L, Forall (good_axis 2) axes' ->
  moved_grid d axes axes' -> inside_grid axes x -> inside_grid axes' z ->
  (forall k idx, (k < length axes)%nat -> in_shape (map npts axes) idx -> in_shape (map npts axes) (next_along k idx) ->
    Rabs (V (next_along k idx) - V idx) <= L k * spacing (nth k axes no_axis) (nth k idx 0%Z)) ->
  Rabs (tenL (ops1 lin1 axes x) V - tenL (ops1 lin1 axes' z) V)
    <= sum_upto (length axes) (fun k => L k * (Rabs (nth k x 0 - nth k z 0) + d k)).
Proof.
  induction 1 as [|a axes Ga G IH]; intros axes' x z V d L G' (HL & HM) Hx Hx' HV.
  - destruct axes'; [|discriminate]. destruct Hx as (Lx & _). destruct x; [|discriminate].
    destruct Hx' as (Lz & _). destruct z; [|discriminate]. cbn [ops1 combine map tenL].
    rewrite Rminus_diag_eq, Rabs_R0 by auto. unfold sum_upto. simpl. lra.
  - destruct axes' as [|b axes']; [discriminate|]. destruct x as [|x0 x]; [destruct Hx; discriminate|].
    destruct z as [|z0 z]; [destruct Hx'; discriminate|].
    inversion G' as [|? ? Gb G'']; subst. assert (Hab := HM 0%nat a b eq_refl eq_refl).
    apply inside_cons in Hx as (X0 & Hx). apply inside_cons in Hx' as (X0' & Hx'). assert (Lx := proj1 Hx).
    simpl in HL. injection HL as HL.
    unfold ops1. cbn [combine map tenL fst snd]. fold (ops1 lin1 axes x). fold (ops1 lin1 axes' z).
    set (w := fun i => tenL (ops1 lin1 axes x) (fun idx => V (i :: idx))).
    set (w' := fun i => tenL (ops1 lin1 axes' z) (fun idx => V (i :: idx))).
    cbn [length]. rewrite sum_upto_S. cbn [nth].
    set (rest := sum_upto (length axes) (fun k => L (S k) * (Rabs (nth k x 0 - nth k z 0) + d (S k)))).
    assert (S0 : forall i, (0 <= i)%Z -> (i + 1 < npts a)%Z -> Rabs (w (i + 1)%Z - w i) <= L 0%nat * spacing a i).
    { intros i H1 H2. unfold w. rewrite (tenL_minus _ _ _ _ (good_lin x Lx G)).
      eapply Rle_trans; [apply (tenL_norm axes _ 1 _ (L 0%nat * spacing a i))|].
      - apply lin_ops_norm; auto.
      - intros idx Hs. assert (Q := HV 0%nat (i :: idx)). unfold next_along in Q. simpl in Q. apply Q; [lia| |];
          apply in_shape_cons; split; auto; lia.
      - rewrite pow1. lra. }
    assert (B1 := lin1_moved_points a b (d 0%nat) x0 z0 w (L 0%nat) Ga Gb Hab S0 X0').
    assert (B2 : Rabs (lin1 b z0 w - lin1 b z0 w') <= rest).
    { rewrite (lf_minus (npts b)) by (apply lin1_lf; apply Gb).
      assert (E0 : forall i, (0 <= i < npts b)%Z -> Rabs (w i - w' i) <= rest).
      { intros i Hi. unfold w, w', rest. apply (IH axes' x z (fun idx => V (i :: idx)) (fun k => d (S k)) (fun k => L (S k))); auto.
        - split; [lia|]. intros k a0 b0 Hka Hkb. apply (HM (S k) a0 b0 Hka Hkb).
        - intros k idx Hk H1 H2. assert (Q := HV (S k) (i :: idx)). unfold next_along in *. simpl in Q.
          assert (En := proj1 Hab). apply Q; [lia| |]; apply in_shape_cons; split; auto; lia. }
      rewrite <- (Rmult_1_l rest). apply lin1_norm; auto. }
    replace (lin1 a x0 w - lin1 b z0 w') with ((lin1 a x0 w - lin1 b z0 w) + (lin1 b z0 w - lin1 b z0 w')) by ring.
    eapply Rle_trans; [apply Rabs_triang|]. lra.
Qed.

Theorem moved_grid_linear_points c c' vals axes axes' dom dom' eval eval' x z d L :
  multilinear c vals axes dom eval -> multilinear c' vals axes' dom' eval' -> moved_grid d axes axes' ->
  inside_grid axes x -> inside_grid axes' z ->
  (forall k, (k < length axes)%nat -> data_slope_at_most axes vals k (L k)) ->
  exists r r', eval x = Ok r /\ eval' z = Ok r' /\
    Rabs (r - r') <= sum_upto (length axes) (fun k => L k * (Rabs (nth k x 0 - nth k z 0) + d k)).
Proof.
  intros H H' HM Hx Hx' HL. destruct (multilinear_value H) as (G & Lv & E). destruct (multilinear_value H') as (G' & Lv' & E').
  do 2 eexists. split; [apply E; [apply Hx|eapply multilinear_inside; eauto]|].
  split; [apply E'; [apply Hx'|eapply multilinear_inside; eauto]|].
  rewrite (moved_npts d axes axes' HM). apply lin_moved_val; auto.
  intros k idx Hk. apply (HL k Hk).
Qed.
