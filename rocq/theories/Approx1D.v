(** Taylor bounds on an interval, and the error of the one-dimensional linear and cubic
    interpolants of a smooth function. *)
From Coq Require Import Reals Lra PeanoNat Bool ZifyBool ZifyNat.
From Verif Require Import Base Ops Spec SpecReal RTensor RPoly R1D SpecApprox.
Unset Implicit Arguments.
Open Scope R_scope.

Lemma Rabs_le_inv x y : Rabs x <= y -> - y <= x <= y.
Proof. intros H. split; [|apply Rle_trans with (2 := H); apply Rle_abs].
  apply Ropp_le_cancel. rewrite Ropp_involutive. apply Rle_trans with (2 := H).
  rewrite <- Rabs_Ropp. apply Rle_abs. Qed.

(** ** Growth *)
Lemma nonneg_growth (g g' : R -> R) : (forall u, 0 <= u <= 1 -> derivable_pt_lim g u (g' u)) ->
  (forall u, 0 <= u <= 1 -> 0 <= g' u) -> g 0 <= g 1.
Proof.
  intros H P. destruct (MVT_cor2 g g' 0 1 ltac:(lra) H) as (c & E & Hc).
  assert (Q := P c ltac:(lra)). lra.
Qed.

Lemma unit_growth (phi phi' : R -> R) K n :
  (forall u, 0 <= u <= 1 -> derivable_pt_lim phi u (phi' u)) ->
  (forall u, 0 <= u <= 1 -> Rabs (phi' u) <= K * u ^ n) ->
  Rabs (phi 1 - phi 0) <= K / INR (S n).
Proof.
  intros HD HB.
  assert (HS : 0 < INR (S n)) by (apply lt_0_INR; lia).
  set (b := fun u : R => K / INR (S n) * u ^ S n).
  assert (Hb : forall u, derivable_pt_lim b u (K * u ^ n)).
  { intros u. unfold b. replace (K * u ^ n) with (K / INR (S n) * (INR (S n) * u ^ pred (S n))).
    - apply (derivable_pt_lim_scal (fun v => v ^ S n)). apply derivable_pt_lim_pow.
    - simpl pred. field. lra. }
  assert (B0 : b 0 = 0) by (unfold b; simpl; ring).
  assert (B1 : b 1 = K / INR (S n)) by (unfold b; rewrite pow1; ring).
  assert (U : (b - phi)%F 0 <= (b - phi)%F 1).
  { apply (nonneg_growth _ (fun u => K * u ^ n - phi' u)).
    - intros u Hu. apply derivable_pt_lim_minus; auto.
    - intros u Hu. specialize (HB u Hu). apply Rabs_le_inv in HB. lra. }
  assert (L : (b + phi)%F 0 <= (b + phi)%F 1).
  { apply (nonneg_growth _ (fun u => K * u ^ n + phi' u)).
    - intros u Hu. apply derivable_pt_lim_plus; auto.
    - intros u Hu. specialize (HB u Hu). apply Rabs_le_inv in HB. lra. }
  unfold minus_fct, plus_fct in *. apply Rabs_le. lra.
Qed.

Lemma along (g : R -> R) x d u l : derivable_pt_lim g (x + u * d) l ->
  derivable_pt_lim (fun v => g (x + v * d)) u (l * d).
Proof.
  intros H. apply (derivable_pt_lim_comp (fun v => x + v * d) g u d l).
  - assert (E : derivable_pt_lim (fun v => x + v * d) u (0 + (1 * d + u * 0))).
    { apply (derivable_pt_lim_plus (fun _ => x) (fun v => v * d)); [apply derivable_pt_lim_const|].
      apply (derivable_pt_lim_mult (fun v => v) (fun _ => d)); [apply derivable_pt_lim_id|apply derivable_pt_lim_const]. }
    replace (0 + (1 * d + u * 0)) with d in E by ring. exact E.
  - exact H.
Qed.

Lemma along_poly c1 c2 u : derivable_pt_lim (fun v => c1 * v + c2 * v ^ 2) u (c1 + c2 * (2 * u)).
Proof.
  apply derivable_pt_lim_plus.
  - assert (E : derivable_pt_lim (fun v => c1 * v) u (c1 * 1))
      by (apply (derivable_pt_lim_scal (fun v => v)); apply derivable_pt_lim_id).
    rewrite Rmult_1_r in E. exact E.
  - apply (derivable_pt_lim_scal (fun v => v ^ 2)). replace (2 * u) with (INR 2 * u ^ pred 2) by (simpl; ring).
    apply derivable_pt_lim_pow.
Qed.

(** ** Taylor on an interval *)
Section Taylor.
Variables (A B : R) (h D1 : R -> R).
Hypothesis H1 : forall s, A <= s <= B -> derivable_pt_lim h s (D1 s).

Lemma segment x s u : A <= x <= B -> A <= s <= B -> 0 <= u <= 1 -> A <= x + u * (s - x) <= B.
Proof using. clear. intros. split; nra. Qed.

Lemma taylor0 L x s : A <= x <= B -> A <= s <= B -> (forall r, A <= r <= B -> Rabs (D1 r) <= L) ->
  Rabs (h s - h x) <= L * Rabs (s - x).
Proof using H1.
  intros Hx Hs HL.
  assert (G := unit_growth (fun u => h (x + u * (s - x))) (fun u => D1 (x + u * (s - x)) * (s - x))
    (L * Rabs (s - x)) 0).
  cbv beta in G. replace (x + 1 * (s - x)) with s in G by ring. replace (x + 0 * (s - x)) with x in G by ring.
  simpl INR in G. unfold Rdiv in G. rewrite Rinv_1, Rmult_1_r in G. apply G.
  - intros u Hu. apply along. apply H1. apply segment; auto.
  - intros u Hu. simpl. rewrite Rmult_1_r, Rabs_mult. apply Rmult_le_compat_r; [apply Rabs_pos|].
    apply HL. apply segment; auto.
Qed.

End Taylor.

Lemma taylor1 A B h D1 D2 M x s :
  (forall s, A <= s <= B -> derivable_pt_lim h s (D1 s)) ->
  (forall s, A <= s <= B -> derivable_pt_lim D1 s (D2 s)) ->
  (forall r, A <= r <= B -> Rabs (D2 r) <= M) -> A <= x <= B -> A <= s <= B ->
  Rabs (h s - (h x + D1 x * (s - x))) <= M / 2 * (s - x) ^ 2.
Proof.
  intros H1 H2 HM Hx Hs. set (d := s - x).
  assert (G := unit_growth (fun u => h (x + u * d) - (D1 x * d * u + 0 * u ^ 2))
    (fun u => D1 (x + u * d) * d - (D1 x * d + 0 * (2 * u))) (M * d ^ 2) 1).
  cbv beta in G. replace (x + 1 * d) with s in G by (unfold d; ring).
  replace (x + 0 * d) with x in G by ring.
  simpl INR in G.
  replace (h s - (h x + D1 x * d)) with (h s - (D1 x * d * 1 + 0 * 1 ^ 2) - (h x - (D1 x * d * 0 + 0 * 0 ^ 2))) by ring.
  replace (M / 2 * d ^ 2) with (M * d ^ 2 / (1 + 1)) by field. apply G.
  - intros u Hu. apply (derivable_pt_lim_minus (fun v => h (x + v * d))); [|apply along_poly].
    apply along. apply H1. apply segment; auto.
  - intros u Hu.
    assert (T := taylor0 A B D1 D2 H2 M x (x + u * d) Hx (segment A B x s u Hx Hs Hu) HM).
    replace (D1 (x + u * d) * d - (D1 x * d + 0 * (2 * u))) with ((D1 (x + u * d) - D1 x) * d) by ring.
    rewrite Rabs_mult. replace (x + u * d - x) with (u * d) in T by ring. rewrite Rabs_mult, (Rabs_right u) in T by lra.
    apply Rle_trans with (M * (u * Rabs d) * Rabs d); [apply Rmult_le_compat_r; [apply Rabs_pos|auto]|].
    replace (M * (u * Rabs d) * Rabs d) with (M * (Rabs d) ^ 2 * u ^ 1) by ring.
    rewrite pow2_abs. lra.
Qed.

Lemma taylor2 A B h D1 D2 D3 M x s :
  (forall s, A <= s <= B -> derivable_pt_lim h s (D1 s)) ->
  (forall s, A <= s <= B -> derivable_pt_lim D1 s (D2 s)) ->
  (forall s, A <= s <= B -> derivable_pt_lim D2 s (D3 s)) ->
  (forall r, A <= r <= B -> Rabs (D3 r) <= M) -> A <= x <= B -> A <= s <= B ->
  Rabs (h s - (h x + D1 x * (s - x) + D2 x / 2 * (s - x) ^ 2)) <= M / 6 * Rabs (s - x) ^ 3.
Proof.
  intros H1 H2 H3 HM Hx Hs. set (d := s - x).
  assert (G := unit_growth (fun u => h (x + u * d) - (D1 x * d * u + D2 x / 2 * d ^ 2 * u ^ 2))
    (fun u => D1 (x + u * d) * d - (D1 x * d + D2 x / 2 * d ^ 2 * (2 * u))) (M / 2 * Rabs d ^ 3) 2).
  cbv beta in G. replace (x + 1 * d) with s in G by (unfold d; ring).
  replace (x + 0 * d) with x in G by ring.
  simpl INR in G.
  replace (h s - (h x + D1 x * d + D2 x / 2 * d ^ 2))
    with (h s - (D1 x * d * 1 + D2 x / 2 * d ^ 2 * 1 ^ 2) - (h x - (D1 x * d * 0 + D2 x / 2 * d ^ 2 * 0 ^ 2))) by ring.
  replace (M / 6 * Rabs d ^ 3) with (M / 2 * Rabs d ^ 3 / (1 + 1 + 1)) by field. apply G.
  - intros u Hu. apply (derivable_pt_lim_minus (fun v => h (x + v * d))); [|apply along_poly].
    apply along. apply H1. apply segment; auto.
  - intros u Hu.
    assert (T := taylor1 A B D1 D2 D3 M x (x + u * d) H2 H3 HM Hx (segment A B x s u Hx Hs Hu)).
    replace (D1 (x + u * d) * d - (D1 x * d + D2 x / 2 * d ^ 2 * (2 * u)))
      with ((D1 (x + u * d) - (D1 x + D2 x * (x + u * d - x))) * d) by field.
    rewrite Rabs_mult. replace (x + u * d - x) with (u * d) in * by ring.
    apply Rle_trans with (M / 2 * (u * d) ^ 2 * Rabs d); [apply Rmult_le_compat_r; [apply Rabs_pos|auto]|].
    replace (M / 2 * Rabs d ^ 3 * u ^ 2) with (M / 2 * (u ^ 2 * (Rabs d ^ 2)) * Rabs d) by ring.
    rewrite pow2_abs. right. ring.
Qed.

(** The trapezoid rule for D1. *)
Lemma trapezoid A B h D1 D2 D3 M x s :
  (forall s, A <= s <= B -> derivable_pt_lim h s (D1 s)) ->
  (forall s, A <= s <= B -> derivable_pt_lim D1 s (D2 s)) ->
  (forall s, A <= s <= B -> derivable_pt_lim D2 s (D3 s)) ->
  (forall r, A <= r <= B -> Rabs (D3 r) <= M) -> A <= x <= B -> A <= s <= B ->
  Rabs (2 * (h s - h x) - (s - x) * (D1 s + D1 x)) <= M / 6 * Rabs (s - x) ^ 3.
Proof.
  intros H1 H2 H3 HM Hx Hs. set (d := s - x).
  assert (G := unit_growth (fun u => 2 * h (x + u * d) - u * d * (D1 (x + u * d) + D1 x))
    (fun u => 2 * (D1 (x + u * d) * d) - (d * (D1 (x + u * d) + D1 x) + u * d * (D2 (x + u * d) * d + 0)))
    (M / 2 * Rabs d ^ 3) 2).
  cbv beta in G. replace (x + 1 * d) with s in G by (unfold d; ring).
  replace (x + 0 * d) with x in G by ring.
  simpl INR in G.
  replace (2 * (h s - h x) - d * (D1 s + D1 x))
    with (2 * h s - 1 * d * (D1 s + D1 x) - (2 * h x - 0 * d * (D1 x + D1 x))) by ring.
  replace (M / 6 * Rabs d ^ 3) with (M / 2 * Rabs d ^ 3 / (1 + 1 + 1)) by field. apply G.
  - intros u Hu. assert (Hy := segment A B x s u Hx Hs Hu). fold d in Hy.
    apply (derivable_pt_lim_minus (fun v => 2 * h (x + v * d))).
    + apply (derivable_pt_lim_scal (fun v => h (x + v * d))). apply along. auto.
    + apply (derivable_pt_lim_mult (fun v => v * d) (fun v => D1 (x + v * d) + D1 x)).
      * assert (E : derivable_pt_lim (fun v => v * d) u (1 * d + u * 0))
          by (apply (derivable_pt_lim_mult (fun v => v) (fun _ => d)); [apply derivable_pt_lim_id|apply derivable_pt_lim_const]).
        replace (1 * d + u * 0) with d in E by ring. exact E.
      * apply (derivable_pt_lim_plus (fun v => D1 (x + v * d)) (fun _ => D1 x)); [|apply derivable_pt_lim_const].
        apply along. auto.
  - intros u Hu. assert (Hy := segment A B x s u Hx Hs Hu). fold d in Hy.
    assert (T := taylor1 A B D1 D2 D3 M (x + u * d) x H2 H3 HM Hy Hx).
    replace (2 * (D1 (x + u * d) * d) - (d * (D1 (x + u * d) + D1 x) + u * d * (D2 (x + u * d) * d + 0)))
      with (- (D1 x - (D1 (x + u * d) + D2 (x + u * d) * (x - (x + u * d)))) * d) by ring.
    rewrite Rabs_mult, Rabs_Ropp. replace (x - (x + u * d)) with (- (u * d)) in * by ring.
    apply Rle_trans with (M / 2 * (- (u * d)) ^ 2 * Rabs d); [apply Rmult_le_compat_r; [apply Rabs_pos|auto]|].
    replace (M / 2 * Rabs d ^ 3 * u ^ 2) with (M / 2 * (u ^ 2 * (Rabs d ^ 2)) * Rabs d) by ring.
    rewrite pow2_abs. right. ring.
Qed.

Lemma quarter t : 0 <= t <= 1 -> 0 <= t * (1 - t) <= 1 / 4.
Proof.
  intros H. split; [apply Rmult_le_pos; lra|].
  assert (0 <= (1 - 2 * t) ^ 2) by apply pow2_ge_0. nra.
Qed.

(** ** The linear interpolant *)
Section LinErr.
Variable a : axis.
Hypothesis Ha : increasing_axis a.
Hypothesis Hn : (2 <= npts a)%Z.
Variables (x : R) (o : Z).
Hypothesis Ho : in_cell a x o.
Hypothesis Hx : coord a o <= x <= coord a (o + 1).

Lemma local_point : let t := local_coord a x o in let w := spacing a o in
  0 < w /\ 0 <= t <= 1 /\ x - coord a o = t * w /\ coord a (o + 1) - x = (1 - t) * w.
Proof using Ha Ho Hx.
  intros t w. assert (W : 0 < w) by (apply (axis_gap Ha); destruct Ho; lia).
  assert (E : x - coord a o = t * w) by (unfold t, local_coord; fold (spacing a o); unfold w in *; field; lra).
  assert (F : coord a (o + 1) - coord a o = w) by reflexivity.
  split; auto. split; [split; nra|]. split; [auto|]. lra.
Qed.

Lemma lin1_lipschitz (h : R -> R) L : 0 <= L ->
  (forall s, coord a o <= s <= coord a (o + 1) -> Rabs (h s - h x) <= L * Rabs (s - x)) ->
  Rabs (lin1 a x (fun i => h (coord a i)) - h x) <= L * spacing a o / 2.
Proof using Ha Hn Ho Hx.
  intros HL HB. rewrite (lin1_weights Ha Hn _ Ho).
  destruct local_point as (W & T & E & F).
  set (t := local_coord a x o) in *. set (w := spacing a o) in *.
  assert (B0 := HB (coord a o) ltac:(lra)). assert (B1 := HB (coord a (o + 1)) ltac:(lra)).
  rewrite (Rabs_left1 (coord a o - x)) in B0 by lra. rewrite (Rabs_right (coord a (o + 1) - x)) in B1 by lra.
  replace (- (coord a o - x)) with (t * w) in B0 by lra. rewrite F in B1.
  replace ((1 - t) * h (coord a o) + t * h (coord a (o + 1)) - h x)
    with ((1 - t) * (h (coord a o) - h x) + t * (h (coord a (o + 1)) - h x)) by ring.
  eapply Rle_trans; [apply Rabs_triang|]. rewrite !Rabs_mult, (Rabs_right (1 - t)), (Rabs_right t) by lra.
  apply Rle_trans with ((1 - t) * (L * (t * w)) + t * (L * ((1 - t) * w))).
  - apply Rplus_le_compat; apply Rmult_le_compat_l; lra.
  - assert (0 <= (1 - 2 * t) ^ 2) by apply pow2_ge_0. assert (0 <= L * w) by nra.
    assert (0 <= L * w * (1 - 2 * t) ^ 2) by (apply Rmult_le_pos; auto). nra.
Qed.

Lemma lin1_error (h D1 D2 : R -> R) M :
  (forall s, coord a o <= s <= coord a (o + 1) -> derivable_pt_lim h s (D1 s)) ->
  (forall s, coord a o <= s <= coord a (o + 1) -> derivable_pt_lim D1 s (D2 s)) ->
  (forall s, coord a o <= s <= coord a (o + 1) -> Rabs (D2 s) <= M) ->
  Rabs (lin1 a x (fun i => h (coord a i)) - h x) <= M * spacing a o ^ 2 / 8.
Proof using Ha Hn Ho Hx.
  intros H1 H2 HM. rewrite (lin1_weights Ha Hn _ Ho).
  destruct local_point as (W & T & E & F).
  set (t := local_coord a x o) in *. set (w := spacing a o) in *.
  assert (M0 : 0 <= M) by (eapply Rle_trans; [apply Rabs_pos|apply (HM x Hx)]).
  assert (B0 := taylor1 _ _ h D1 D2 M x (coord a o) H1 H2 HM Hx ltac:(lra)).
  assert (B1 := taylor1 _ _ h D1 D2 M x (coord a (o + 1)) H1 H2 HM Hx ltac:(lra)).
  replace (coord a o - x) with (- (t * w)) in B0 by lra. rewrite F in B1.
  set (r0 := h (coord a o) - (h x + D1 x * - (t * w))) in *.
  set (r1 := h (coord a (o + 1)) - (h x + D1 x * ((1 - t) * w))) in *.
  replace ((1 - t) * h (coord a o) + t * h (coord a (o + 1)) - h x)
    with ((1 - t) * r0 + t * r1) by (unfold r0, r1; ring).
  eapply Rle_trans; [apply Rabs_triang|]. rewrite !Rabs_mult, (Rabs_right (1 - t)), (Rabs_right t) by lra.
  apply Rle_trans with ((1 - t) * (M / 2 * (- (t * w)) ^ 2) + t * (M / 2 * ((1 - t) * w) ^ 2)).
  - apply Rplus_le_compat; apply Rmult_le_compat_l; lra.
  - assert (0 <= M * (w ^ 2 * (1 - 2 * t) ^ 2)).
    { apply Rmult_le_pos; auto. apply Rmult_le_pos; apply pow2_ge_0. }
    nra.
Qed.
End LinErr.

(** ** The cubic interpolant *)
Lemma herm_basis a f j x : increasing_axis a -> (0 <= j <= npts a - 2)%Z ->
  let w := spacing a j in let t := local_coord a x j in
  herm_piece a f j x = (1 - t) ^ 2 * (1 + 2 * t) * f j + t ^ 2 * (3 - 2 * t) * f (j + 1)%Z
    + t * (1 - t) ^ 2 * (w * slope a f j) - t ^ 2 * (1 - t) * (w * slope a f (j + 1)).
Proof.
  intros Ha Hj w t. assert (G : 0 < gap (coord a) j) by (apply (axis_gap Ha); lia).
  unfold herm_piece, t, w, local_coord, spacing, dd, gap in *.
  set (m0 := slope a f j). set (m1 := slope a f (j + 1)). field. lra.
Qed.

Lemma axis_range a i : increasing_axis a -> (0 <= i < npts a)%Z ->
  coord a 0 <= coord a i <= coord a (npts a - 1).
Proof. intros Ha Hi. split; apply (axis_le Ha); lia. Qed.

Section CubErr.
Variable a : axis.
Hypothesis Ha : increasing_axis a.
Hypothesis Hn : (4 <= npts a)%Z.
Variables (h D1 D2 D3 : R -> R) (M H : R).
Hypothesis H1 : forall s, coord a 0 <= s <= coord a (npts a - 1) -> derivable_pt_lim h s (D1 s).
Hypothesis H2 : forall s, coord a 0 <= s <= coord a (npts a - 1) -> derivable_pt_lim D1 s (D2 s).
Hypothesis H3 : forall s, coord a 0 <= s <= coord a (npts a - 1) -> derivable_pt_lim D2 s (D3 s).
Hypothesis HM : forall s, coord a 0 <= s <= coord a (npts a - 1) -> Rabs (D3 s) <= M.
Hypothesis HH : spacing_at_most a H.

Let f (i : Z) : R := h (coord a i).
Let node_in i := axis_range a i Ha.

Lemma M_nonneg : 0 <= M.
Proof using All. eapply Rle_trans; [apply Rabs_pos|apply (HM (coord a 0))]. apply node_in. lia. Qed.

Lemma gap_H i : (0 <= i <= npts a - 2)%Z -> 0 < gap (coord a) i <= H.
Proof using All. intros Hi. split; [apply (axis_gap Ha); lia|apply (HH i Hi)]. Qed.

Lemma mid_slope_error i : (0 < i < npts a - 1)%Z ->
  Rabs (mid_slope (coord a) f i - D1 (coord a i)) <= M / 6 * (gap (coord a) (i - 1) * gap (coord a) i).
Proof using All.
  intros Hi.
  assert (B0 := taylor2 _ _ h D1 D2 D3 M (coord a i) (coord a (i - 1)) H1 H2 H3 HM
    (node_in i ltac:(lia)) (node_in (i - 1) ltac:(lia))).
  assert (B1 := taylor2 _ _ h D1 D2 D3 M (coord a i) (coord a (i + 1)) H1 H2 H3 HM
    (node_in i ltac:(lia)) (node_in (i + 1) ltac:(lia))).
  assert (G0 : 0 < gap (coord a) (i - 1)) by (apply (axis_gap Ha); lia).
  assert (G1 : 0 < gap (coord a) i) by (apply (axis_gap Ha); lia).
  unfold mid_slope, dd, f. fold (gap (coord a) i). fold (gap (coord a) (i - 1)).
  unfold gap in G0 at 1. 
  set (p := gap (coord a) (i - 1)) in *. set (q := gap (coord a) i) in *.
  assert (Ep : coord a i - coord a (i - 1) = p) by (unfold p, gap; repeat f_equal; lia).
  assert (Eq : coord a (i + 1) - coord a i = q) by reflexivity.
  replace (i - 1 + 1)%Z with i in * by lia. rewrite Ep in G0.
  replace (coord a (i - 1) - coord a i) with (- p) in B0 by lra. rewrite Eq in B1.
  rewrite Rabs_Ropp, (Rabs_right p) in B0 by lra. rewrite (Rabs_right q) in B1 by lra.
  set (u := D1 (coord a i)) in *. set (v := D2 (coord a i)) in *.
  set (r0 := h (coord a (i - 1)) - (h (coord a i) + u * - p + v / 2 * (- p) ^ 2)) in *.
  set (r1 := h (coord a (i + 1)) - (h (coord a i) + u * q + v / 2 * q ^ 2)) in *.
  replace ((p * ((h (coord a (i + 1)) - h (coord a i)) / q) + q * ((h (coord a i) - h (coord a (i - 1))) / p))
     / (p + q) - u) with ((p ^ 2 * r1 - q ^ 2 * r0) / (p * q * (p + q))) by (unfold r0, r1; field; lra).
  assert (PQ : 0 < p * q * (p + q)) by (apply Rmult_lt_0_compat; nra).
  unfold Rdiv. rewrite Rabs_mult, (Rabs_right (/ _)) by (left; apply Rinv_0_lt_compat; auto).
  apply Rmult_le_reg_r with (p * q * (p + q)); auto.
  rewrite Rmult_assoc, Rinv_l, Rmult_1_r by lra.
  eapply Rle_trans; [apply Rabs_triang|]. rewrite Rabs_Ropp, !Rabs_mult.
  rewrite (Rabs_right (p ^ 2)), (Rabs_right (q ^ 2)) by (apply Rle_ge; apply pow2_ge_0).
  apply Rle_trans with (p ^ 2 * (M / 6 * q ^ 3) + q ^ 2 * (M / 6 * p ^ 3)).
  - apply Rplus_le_compat; apply Rmult_le_compat_l; auto; apply pow2_ge_0.
  - right. field.
Qed.

Lemma end_slope_error i j : (0 <= i < npts a)%Z -> (0 < j < npts a - 1)%Z -> (j = i + 1 \/ i = j + 1)%Z ->
  Rabs (2 * ((f j - f i) / (coord a j - coord a i)) - mid_slope (coord a) f j - D1 (coord a i)) <= M / 3 * H ^ 2.
Proof using All.
  intros Hi Hj Hij.
  assert (T := trapezoid _ _ h D1 D2 D3 M (coord a i) (coord a j) H1 H2 H3 HM
     (node_in i ltac:(lia)) (node_in j ltac:(lia))).
  assert (S := mid_slope_error j Hj).
  assert (M0 := M_nonneg).
  assert (G0 := gap_H (j - 1) ltac:(lia)). assert (G1 := gap_H j ltac:(lia)).
  assert (D : 0 < Rabs (coord a j - coord a i) <= H).
  { destruct Hij as [-> | ->].
    - assert (G := gap_H i ltac:(lia)). unfold gap in G. rewrite Rabs_right; lra.
    - unfold gap in G1. rewrite Rabs_left; lra. }
  set (d := coord a j - coord a i) in *. set (m := mid_slope (coord a) f j) in *.
  assert (Dn : d <> 0) by (intros E; rewrite E, Rabs_R0 in D; lra).
  replace (2 * ((f j - f i) / d) - m - D1 (coord a i))
    with ((2 * (h (coord a j) - h (coord a i)) - d * (D1 (coord a j) + D1 (coord a i))) / d - (m - D1 (coord a j)))
    by (unfold f; field; auto).
  eapply Rle_trans; [apply Rabs_triang|]. rewrite Rabs_Ropp.
  apply Rle_trans with (M / 6 * Rabs d ^ 2 + M / 6 * (gap (coord a) (j - 1) * gap (coord a) j)).
  - apply Rplus_le_compat; auto. unfold Rdiv at 1. rewrite Rabs_mult, Rabs_inv.
    apply Rmult_le_reg_r with (Rabs d); [lra|]. rewrite Rmult_assoc, Rinv_l, Rmult_1_r by lra.
    eapply Rle_trans; [exact T|]. right. ring.
  - assert (Rabs d ^ 2 <= H ^ 2) by (apply pow_incr; lra).
    assert (gap (coord a) (j - 1) * gap (coord a) j <= H ^ 2)
      by (simpl; rewrite Rmult_1_r; apply Rmult_le_compat; lra).
    nra.
Qed.

Lemma slope_error i : (0 <= i < npts a)%Z -> Rabs (slope a f i - D1 (coord a i)) <= M / 3 * H ^ 2.
Proof using All.
  intros Hi. unfold slope.
  destruct (Z.eqb_spec i 0) as [->|N0]; [|destruct (Z.eqb_spec i (npts a - 1)) as [->|N1]].
  - assert (E := end_slope_error 0 1 ltac:(lia) ltac:(lia) ltac:(lia)). exact E.
  - assert (E := end_slope_error (npts a - 1) (npts a - 2) ltac:(lia) ltac:(lia) ltac:(lia)).
    unfold dd. replace (npts a - 2 + 1)%Z with (npts a - 1)%Z by lia.
    replace ((f (npts a - 1)%Z - f (npts a - 2)%Z) / (coord a (npts a - 1) - coord a (npts a - 2)))
      with ((f (npts a - 2)%Z - f (npts a - 1)%Z) / (coord a (npts a - 2) - coord a (npts a - 1))); [exact E|].
    assert (coord a (npts a - 2) < coord a (npts a - 1)) by (apply Ha; lia). field. lra.
  - assert (E := mid_slope_error i ltac:(lia)). assert (M0 := M_nonneg).
    assert (G0 := gap_H (i - 1) ltac:(lia)). assert (G1 := gap_H i ltac:(lia)).
    assert (gap (coord a) (i - 1) * gap (coord a) i <= H ^ 2)
      by (simpl; rewrite Rmult_1_r; apply Rmult_le_compat; lra).
    assert (0 <= H ^ 2) by apply pow2_ge_0.
    eapply Rle_trans; [exact E|]. nra.
Qed.

Lemma cub1_error lin x : coord a 0 <= x <= coord a (npts a - 1) ->
  Rabs (cub1 lin a x f - h x) <= 7 / 48 * M * H ^ 3.
Proof using All.
  intros Hx. destruct (@in_cell_ex a ltac:(lia) x) as (j & Hj).
  rewrite (@cub1_herm a Ha Hn lin f x j Hj (or_introl Hx)).
  assert (Hc : coord a j <= x <= coord a (j + 1)).
  { destruct Hj as (J1 & J2 & J3). split; [destruct J2 as [-> |]; lra|].
    destruct J3 as [-> |]; [|lra]. replace (npts a - 2 + 1)%Z with (npts a - 1)%Z by lia. lra. }
  assert (J := proj1 Hj). rewrite (herm_basis a f j x Ha J).
  destruct (local_point a Ha x j Hj Hc) as (W & T & E & F).
  assert (WH := HH j J). assert (M0 := M_nonneg).
  set (t := local_coord a x j) in *. set (w := spacing a j) in *.
  assert (N0 := node_in j ltac:(lia)). assert (N1 := node_in (j + 1) ltac:(lia)).
  assert (B0 := taylor2 _ _ h D1 D2 D3 M x (coord a j) H1 H2 H3 HM Hx N0).
  assert (B1 := taylor2 _ _ h D1 D2 D3 M x (coord a (j + 1)) H1 H2 H3 HM Hx N1).
  assert (C0 := taylor1 _ _ D1 D2 D3 M x (coord a j) H2 H3 HM Hx N0).
  assert (C1 := taylor1 _ _ D1 D2 D3 M x (coord a (j + 1)) H2 H3 HM Hx N1).
  assert (S0 := slope_error j ltac:(lia)). assert (S1 := slope_error (j + 1) ltac:(lia)).
  replace (coord a j - x) with (- (t * w)) in * by lra. rewrite F in *.
  rewrite Rabs_Ropp, (Rabs_right (t * w)) in B0 by nra. rewrite (Rabs_right ((1 - t) * w)) in B1 by nra.
  fold (f j) in B0. fold (f (j + 1)%Z) in B1.
  set (r0 := f j - (h x + D1 x * - (t * w) + D2 x / 2 * (- (t * w)) ^ 2)) in *.
  set (r1 := f (j + 1)%Z - (h x + D1 x * ((1 - t) * w) + D2 x / 2 * ((1 - t) * w) ^ 2)) in *.
  set (p0 := D1 (coord a j) - (D1 x + D2 x * - (t * w))) in *.
  set (p1 := D1 (coord a (j + 1)) - (D1 x + D2 x * ((1 - t) * w))) in *.
  set (d0 := slope a f j - D1 (coord a j)) in *.
  set (d1 := slope a f (j + 1) - D1 (coord a (j + 1))) in *.
  assert (Hp : 0 < H) by lra.
  set (P := t * (1 - t)). assert (HP : 0 <= P <= 1 / 4) by (apply quarter; auto).
  set (A := (1 - t) ^ 2 * (1 + 2 * t)). set (B := t ^ 2 * (3 - 2 * t)).
  set (u := t * (1 - t) ^ 2 * w). set (v := t ^ 2 * (1 - t) * w).
  assert (HA : 0 <= A) by (unfold A; apply Rmult_le_pos; [apply pow2_ge_0|lra]).
  assert (HB : 0 <= B) by (unfold B; apply Rmult_le_pos; [apply pow2_ge_0|lra]).
  assert (Hu : 0 <= u) by (unfold u; apply Rmult_le_pos; [apply Rmult_le_pos; [lra|apply pow2_ge_0]|lra]).
  assert (Hv : 0 <= v) by (unfold v; apply Rmult_le_pos; [apply Rmult_le_pos; [apply pow2_ge_0|lra]|lra]).
  replace (A * f j + B * f (j + 1)%Z + t * (1 - t) ^ 2 * (w * slope a f j)
     - t ^ 2 * (1 - t) * (w * slope a f (j + 1)) - h x)
    with (A * r0 + B * r1 + u * (p0 + d0) + - (v * (p1 + d1))) by (unfold A, B, u, v, r0, r1, p0, p1, d0, d1; field).
  apply Rle_trans with (A * (M / 6 * (t * w) ^ 3) + B * (M / 6 * ((1 - t) * w) ^ 3)
     + u * (M / 2 * (- (t * w)) ^ 2 + M / 3 * H ^ 2) + v * (M / 2 * ((1 - t) * w) ^ 2 + M / 3 * H ^ 2)).
  - eapply Rle_trans; [apply Rabs_triang|]. apply Rplus_le_compat.
    + eapply Rle_trans; [apply Rabs_triang|]. apply Rplus_le_compat.
      * eapply Rle_trans; [apply Rabs_triang|]. rewrite !Rabs_mult, (Rabs_right A), (Rabs_right B) by lra.
        apply Rplus_le_compat; apply Rmult_le_compat_l; auto.
      * rewrite Rabs_mult, (Rabs_right u) by lra. apply Rmult_le_compat_l; auto.
        eapply Rle_trans; [apply Rabs_triang|]. apply Rplus_le_compat; auto.
    + rewrite Rabs_Ropp, Rabs_mult, (Rabs_right v) by lra. apply Rmult_le_compat_l; auto.
      eapply Rle_trans; [apply Rabs_triang|]. apply Rplus_le_compat; auto.
  - replace (A * (M / 6 * (t * w) ^ 3) + B * (M / 6 * ((1 - t) * w) ^ 3)
     + u * (M / 2 * (- (t * w)) ^ 2 + M / 3 * H ^ 2) + v * (M / 2 * ((1 - t) * w) ^ 2 + M / 3 * H ^ 2))
      with (M * (w ^ 3 * (P * P * (1 - 2 / 3 * P)) + w * H ^ 2 * (P / 3))) by (unfold A, B, u, v, P; field).
    replace (7 / 48 * M * H ^ 3) with (M * (H ^ 3 * (1 / 16) + H ^ 3 * (1 / 12))) by field.
    apply Rmult_le_compat_l; auto. apply Rplus_le_compat.
    + apply Rmult_le_compat.
      * apply pow_le; lra.
      * apply Rmult_le_pos; nra.
      * apply pow_incr; lra.
      * assert (P * P <= 1 / 16) by nra. assert (0 <= P * P) by nra. nra.
    + replace (H ^ 3) with (H * H ^ 2) by ring.
      apply Rmult_le_compat; [apply Rmult_le_pos; [lra|apply pow2_ge_0]|lra| |lra].
      apply Rmult_le_compat_r; [apply pow2_ge_0|lra].
Qed.
End CubErr.

(** The cubic interpolant may leave the range of the data, but not far. *)
Lemma four_weights A B C D f0 f1 f2 f3 E : 0 <= A -> 0 <= B -> 0 <= C -> 0 <= D ->
  Rabs f0 <= E -> Rabs f1 <= E -> Rabs f2 <= E -> Rabs f3 <= E ->
  Rabs (A * f0 + B * f1 - C * f2 - D * f3) <= (A + B + C + D) * E.
Proof.
  intros HA HB HC HD H0 H1 H2 H3.
  apply Rabs_le_inv in H0, H1, H2, H3. apply Rabs_le. split; nra.
Qed.

Lemma ratio_gain rho w g : 0 < rho -> 0 < g -> 0 < w -> w <= rho * g -> 
  0 <= w * w / (g * (g + w)) <= rho * rho / (1 + rho).
Proof.
  intros Hr Hg Hw H. assert (0 < g * (g + w)) by nra. split.
  - apply Rmult_le_pos; [nra|]. left. apply Rinv_0_lt_compat; auto.
  - apply Rmult_le_reg_r with (g * (g + w)); auto. unfold Rdiv at 1. rewrite Rmult_assoc, Rinv_l, Rmult_1_r by lra.
    apply Rmult_le_reg_r with (1 + rho); [lra|].
    replace (rho * rho / (1 + rho) * (g * (g + w)) * (1 + rho)) with (rho * rho * (g * (g + w))) by (field; lra).
    assert (w * w <= rho * g * (rho * g)) by (apply Rmult_le_compat; lra).
    assert (w * (w * rho) <= w * (rho * g * rho)) by (apply Rmult_le_compat_l; nra).
    nra.
Qed.

Section CubNorm.
Variable a : axis.
Hypothesis Ha : increasing_axis a.
Hypothesis Hn : (4 <= npts a)%Z.
Variable rho : R.
Hypothesis Hr : spacing_ratio_at_most a rho.

Lemma rho_pos : 0 < rho.
Proof using Ha Hn Hr.
  destruct (Hr 0%Z ltac:(lia) ltac:(lia)) as (R1 & _).
  assert (0 < spacing a 0) by (apply (axis_gap Ha); lia).
  assert (0 < spacing a (0 + 1)) by (apply (axis_gap Ha); lia). nra.
Qed.

Lemma cub1_norm lin x f E : coord a 0 <= x <= coord a (npts a - 1) ->
  (forall i, (0 <= i < npts a)%Z -> Rabs (f i) <= E) ->
  Rabs (cub1 lin a x f) <= cubic_gain rho * E.
Proof using Ha Hn Hr.
  intros Hx HE. destruct (@in_cell_ex a ltac:(lia) x) as (j & Hj).
  assert (E0 : 0 <= E) by (eapply Rle_trans; [apply Rabs_pos|apply (HE 0%Z); lia]).
  rewrite (@cub1_herm a Ha Hn lin f x j Hj (or_introl Hx)).
  assert (Hc : coord a j <= x <= coord a (j + 1)).
  { destruct Hj as (J1 & J2 & J3). split; [destruct J2 as [-> |]; lra|].
    destruct J3 as [-> |]; [|lra]. replace (npts a - 2 + 1)%Z with (npts a - 1)%Z by lia. lra. }
  assert (J := proj1 Hj).
  destruct (local_point a Ha x j Hj Hc) as (W & T & EE & F).
  assert (RP := rho_pos).
  set (kap := rho * rho / (1 + rho)).
  assert (KE : cubic_gain rho = 1 + kap / 2) by (unfold cubic_gain, kap; field; lra).
  rewrite KE. clear KE.
  set (t := local_coord a x j) in *. set (w := spacing a j) in *.
  assert (HP := quarter t T).
  destruct (Z.eq_dec j 0) as [J0|J0]; [|destruct (Z.eq_dec j (npts a - 2)) as [J1|J1]].
  - subst j. rewrite (herm_low Ha Hn). unfold low_parabola.
    change (0 + 1)%Z with 1%Z in *.
    assert (G1 : 0 < spacing a 1) by (apply (axis_gap Ha); lia).
    destruct (Hr 0%Z ltac:(lia) ltac:(lia)) as (R1 & _). change (0 + 1)%Z with 1%Z in R1. fold w in R1.
    set (g := spacing a 1) in *.
    destruct (ratio_gain rho w g RP G1 W R1) as (K0 & K1). fold kap in K1.
    set (beta := w * w / (g * (g + w))) in *. set (gam := w / (w + g)).
    assert (HG : 0 <= gam <= 1).
    { unfold gam. split; [apply Rmult_le_pos; [lra|left; apply Rinv_0_lt_compat; lra]|].
      apply Rmult_le_reg_r with (w + g); [lra|]. unfold Rdiv. rewrite Rmult_assoc, Rinv_l by lra. lra. }
    replace (f 0%Z + (x - coord a 0) * (dd (coord a) f 0 + (x - coord a 1) *
        ((dd (coord a) f 1 - dd (coord a) f 0) / (coord a 2 - coord a 0))))
      with (((1 - t) - t * (1 - t) * gam) * f 0%Z + (t + t * (1 - t) * beta + t * (1 - t) * gam) * f 1%Z
         - t * (1 - t) * beta * f 2%Z - 0 * f 0%Z).
    2:{ rewrite EE. replace (x - coord a 1) with (- ((1 - t) * w)) by lra.
        unfold dd. change (0 + 1)%Z with 1%Z. change (1 + 1)%Z with 2%Z.
        assert (E1 : coord a 1 - coord a 0 = w) by reflexivity.
        assert (E2 : coord a 2 - coord a 1 = g) by reflexivity.
        replace (coord a 2 - coord a 0) with (w + g) by lra. rewrite E1, E2. unfold beta, gam. field. lra. }
    assert (X1 : 0 <= t * (1 - t) * beta <= 1 / 4 * kap)
      by (split; [apply Rmult_le_pos; lra|apply Rmult_le_compat; lra]).
    assert (X2 : 0 <= t * (1 - t) * gam <= t * (1 - t) * 1)
      by (split; [apply Rmult_le_pos; lra|apply Rmult_le_compat_l; lra]).
    assert (X3 : t * (1 - t) <= 1 - t /\ t * (1 - t) <= t) by (split; nra).
    eapply Rle_trans; [apply four_weights with (E := E)|]; try (apply HE; lia); try lra.
    apply Rmult_le_compat_r; auto. lra.
  - subst j. rewrite (herm_high Ha Hn). unfold high_parabola.
    replace (npts a - 2 + 1)%Z with (npts a - 1)%Z in * by lia.
    assert (G1 : 0 < spacing a (npts a - 3)) by (apply (axis_gap Ha); lia).
    destruct (Hr (npts a - 3)%Z ltac:(lia) ltac:(lia)) as (_ & R1).
    replace (npts a - 3 + 1)%Z with (npts a - 2)%Z in R1 by lia. fold w in R1.
    set (g := spacing a (npts a - 3)) in *.
    destruct (ratio_gain rho w g RP G1 W R1) as (K0 & K1). fold kap in K1.
    set (beta := w * w / (g * (g + w))) in *. set (gam := w / (w + g)).
    assert (HG : 0 <= gam <= 1).
    { unfold gam. split; [apply Rmult_le_pos; [lra|left; apply Rinv_0_lt_compat; lra]|].
      apply Rmult_le_reg_r with (w + g); [lra|]. unfold Rdiv. rewrite Rmult_assoc, Rinv_l by lra. lra. }
    assert (E1 : coord a (npts a - 1) - coord a (npts a - 2) = w)
      by (unfold w, spacing; replace (npts a - 2 + 1)%Z with (npts a - 1)%Z by lia; reflexivity).
    assert (E2 : coord a (npts a - 2) - coord a (npts a - 3) = g)
      by (unfold g, spacing; replace (npts a - 3 + 1)%Z with (npts a - 2)%Z by lia; reflexivity).
    replace (f (npts a - 1)%Z + (x - coord a (npts a - 1)) * (dd (coord a) f (npts a - 2) + (x - coord a (npts a - 2)) *
        ((dd (coord a) f (npts a - 2) - dd (coord a) f (npts a - 3)) / (coord a (npts a - 1) - coord a (npts a - 3)))))
      with ((t - t * (1 - t) * gam) * f (npts a - 1)%Z
         + ((1 - t) + t * (1 - t) * beta + t * (1 - t) * gam) * f (npts a - 2)%Z
         - t * (1 - t) * beta * f (npts a - 3)%Z - 0 * f 0%Z).
    2:{ rewrite EE. replace (x - coord a (npts a - 1)) with (- ((1 - t) * w)) by lra.
        unfold dd. replace (npts a - 2 + 1)%Z with (npts a - 1)%Z by lia.
        replace (npts a - 3 + 1)%Z with (npts a - 2)%Z by lia.
        replace (coord a (npts a - 1) - coord a (npts a - 3)) with (w + g) by lra. rewrite E1, E2. unfold beta, gam. field. lra. }
    assert (X1 : 0 <= t * (1 - t) * beta <= 1 / 4 * kap)
      by (split; [apply Rmult_le_pos; lra|apply Rmult_le_compat; lra]).
    assert (X2 : 0 <= t * (1 - t) * gam <= t * (1 - t) * 1)
      by (split; [apply Rmult_le_pos; lra|apply Rmult_le_compat_l; lra]).
    assert (X3 : t * (1 - t) <= 1 - t /\ t * (1 - t) <= t) by (split; nra).
    eapply Rle_trans; [apply four_weights with (E := E)|]; try (apply HE; lia); try lra.
    apply Rmult_le_compat_r; auto. lra.
  - rewrite (herm_basis a f j x Ha J). fold t. fold w. unfold slope.
    replace (j =? 0)%Z with false by lia. replace (j =? npts a - 1)%Z with false by lia.
    replace (j + 1 =? 0)%Z with false by lia. replace (j + 1 =? npts a - 1)%Z with false by lia.
    unfold mid_slope, dd.
    replace (j + 1 - 1)%Z with j by lia. replace (j - 1 + 1)%Z with j by lia.
    assert (G0 : 0 < spacing a (j - 1)) by (apply (axis_gap Ha); lia).
    assert (G2 : 0 < spacing a (j + 1)) by (apply (axis_gap Ha); lia).
    destruct (Hr (j - 1)%Z ltac:(lia) ltac:(lia)) as (_ & R0). replace (j - 1 + 1)%Z with j in R0 by lia.
    destruct (Hr j ltac:(lia) ltac:(lia)) as (R2 & _). fold w in R0, R2.
    assert (E0' : coord a j - coord a (j - 1) = spacing a (j - 1)) by (unfold spacing; replace (j - 1 + 1)%Z with j by lia; reflexivity).
    change (gap (coord a) j) with w. change (gap (coord a) (j - 1)) with (spacing a (j - 1)).
    change (gap (coord a) (j + 1)) with (spacing a (j + 1)).
    change (coord a (j + 1 + 1) - coord a (j + 1)) with (spacing a (j + 1)).
    change (coord a (j + 1) - coord a j) with w. rewrite E0'.
    set (p := spacing a (j - 1)) in *. set (q := spacing a (j + 1)) in *.
    destruct (ratio_gain rho w p RP G0 W R0) as (K0 & K1). destruct (ratio_gain rho w q RP G2 W R2) as (K2 & K3).
    fold kap in K1, K3.
    set (be := w * w / (p * (p + w))) in *. set (be' := w * w / (q * (q + w))) in *.
    set (al := p / (p + w)). set (al' := q / (q + w)).
    assert (A1 : 0 <= al <= 1).
    { unfold al. split; [apply Rmult_le_pos; [lra|left; apply Rinv_0_lt_compat; lra]|].
      apply Rmult_le_reg_r with (p + w); [lra|]. unfold Rdiv. rewrite Rmult_assoc, Rinv_l by lra. lra. }
    assert (A2 : 0 <= al' <= 1).
    { unfold al'. split; [apply Rmult_le_pos; [lra|left; apply Rinv_0_lt_compat; lra]|].
      apply Rmult_le_reg_r with (q + w); [lra|]. unfold Rdiv. rewrite Rmult_assoc, Rinv_l by lra. lra. }
    set (u := t * (1 - t) ^ 2). set (v := t ^ 2 * (1 - t)).
    assert (Hu : 0 <= u) by (unfold u; apply Rmult_le_pos; [lra|apply pow2_ge_0]).
    assert (Hv : 0 <= v) by (unfold v; apply Rmult_le_pos; [apply pow2_ge_0|lra]).
    assert (UV : u + v = t * (1 - t)) by (unfold u, v; ring).
    set (f0 := f j). set (f1 := f (j + 1)%Z). set (fm := f (j - 1)%Z). set (fp := f (j + 1 + 1)%Z).
    match goal with |- Rabs ?e <= _ => replace e with
      (((1 - t) ^ 2 * (1 + 2 * t) - u * al + u * be + v * al') * f0
       + (t ^ 2 * (3 - 2 * t) + u * al + v * be' - v * al') * f1 - u * be * fm - v * be' * fp) end.
    2:{ unfold u, v, al, al', be, be'. field. lra. }
    assert (U1 : 0 <= u * al <= u * 1) by (split; [apply Rmult_le_pos; lra|apply Rmult_le_compat_l; lra]).
    assert (V1 : 0 <= v * al' <= v * 1) by (split; [apply Rmult_le_pos; lra|apply Rmult_le_compat_l; lra]).
    assert (U2 : 0 <= u * be <= u * kap) by (split; [apply Rmult_le_pos; lra|apply Rmult_le_compat_l; lra]).
    assert (V2 : 0 <= v * be' <= v * kap) by (split; [apply Rmult_le_pos; lra|apply Rmult_le_compat_l; lra]).
    assert (Q1 : 0 <= (1 - t) ^ 2 * (1 + 2 * t) - u * 1).
    { replace ((1 - t) ^ 2 * (1 + 2 * t) - u * 1) with ((1 - t) ^ 2 * (1 + t)) by (unfold u; ring).
      apply Rmult_le_pos; [apply pow2_ge_0|lra]. }
    assert (Q2 : 0 <= t ^ 2 * (3 - 2 * t) - v * 1).
    { replace (t ^ 2 * (3 - 2 * t) - v * 1) with (t ^ 2 * (2 - t)) by (unfold v; ring).
      apply Rmult_le_pos; [apply pow2_ge_0|lra]. }
    eapply Rle_trans; [apply four_weights with (E := E)|]; try (apply HE; lia); try lra.
    apply Rmult_le_compat_r; auto.
    assert (S1 : (1 - t) ^ 2 * (1 + 2 * t) + t ^ 2 * (3 - 2 * t) = 1) by ring.
    assert (KU : u * kap + v * kap <= 1 / 4 * kap).
    { replace (u * kap + v * kap) with (t * (1 - t) * kap) by (rewrite <- UV; ring).
      apply Rmult_le_compat_r; lra. }
    lra.
Qed.
End CubNorm.
