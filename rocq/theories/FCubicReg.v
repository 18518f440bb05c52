(** Rounding errors of the cubic interpolators on regular grids. *)
From Coq Require Import Reals Lra Lia List Bool ZifyBool ZifyNat PeanoNat.
From Flocq Require Import Core.Core IEEE754.BinarySingleNaN.
From Verif Require Import Base Ops FInst ModelCore ModelLinear ModelCubic Spec SpecOrder SpecIEEE SpecError.
From Verif Require Import CoreLemmas TensorLemmas MethodLemmas MethodChar GenLemmas FLemmas UtilProofs FProofs FProofs2 FError.
From Verif Require Import RInst SpecReal RTensor R1D RChar Interpolators REval RProofs SpecApprox Approx1D FCubic SpecCubicError.
Import ListNotations.
Unset Implicit Arguments.
Open Scope list_scope.
Open Scope R_scope.

Section B.
Variables prec emax : Z.
Context (Hp : Prec_gt_0 prec) (He : Prec_lt_emax prec emax).
Notation fl := (binary_float prec emax).
Notation o := (BOps Hp He).
Notation emin := (3 - emax - prec)%Z.
Notation fin x := (is_finite x = true).
Notation rnd := (rnd prec emax).
Notation u := (bpow radix2 (- prec)).
Notation eta := (/ 2 * bpow radix2 emin).

(** ** The exact pieces *)
Section Pieces.
Variables (start h x : fl) (d : Z).
Notation s := (B2R start).
Notation w := (B2R h).
Notation X := (B2R x).
Hypothesis Ph : 0 < w.
Hypothesis Hd : (4 <= d)%Z.
Notation T := (reg_pos prec emax start h x).
Notation a := (mkAxis d (fun i => s + w * IZR i)).
Variables (lin : bool) (f : Z -> R) (M : R).
Hypothesis Hf : forall i, (0 <= i < d)%Z -> Rabs (f i) <= M.

Lemma a_good : good_axis 4 a.
Proof using Ph Hd. split; [apply reg_axis_inc; auto|exact Hd]. Qed.
Lemma M0 : 0 <= M.
Proof using Hd Hf. eapply Rle_trans; [apply Rabs_pos|apply (Hf 0%Z); lia]. Qed.

Lemma mid_val i : w * mid_slope (coord a) f i = (f (i + 1)%Z - f (i - 1)%Z) / 2.
Proof using All.
  unfold mid_slope, dd, gap. cbn [coord]. replace (i - 1 + 1)%Z with i by lia. rewrite plus_IZR, minus_IZR. field. lra.
Qed.
Lemma dd_val i : w * dd (coord a) f i = f (i + 1)%Z - f i.
Proof using All. unfold dd. cbn [coord]. rewrite plus_IZR. field. lra. Qed.

Lemma slope_bound i : (0 <= i < d)%Z -> Rabs (w * slope a f i) <= 5 * M.
Proof using All.
  intros Hi. unfold slope. cbn [npts].
  assert (Q : forall p q r : R, Rabs p <= M -> Rabs q <= M -> Rabs r <= M -> Rabs (2 * (q - p) - (r - p) / 2) <= 5 * M /\ Rabs (2 * (q - p) - (q - r) / 2) <= 5 * M).
  { intros p q r H1 H2 H3. apply Rabs_le_inv in H1, H2, H3. split; apply Rabs_le; lra. }
  destruct (Z.eqb_spec i 0); [|destruct (Z.eqb_spec i (d - 1))].
  - replace (w * (2 * dd (coord a) f 0 - mid_slope (coord a) f 1)) with (2 * (w * dd (coord a) f 0) - w * mid_slope (coord a) f 1) by ring.
    rewrite dd_val, mid_val. change (0 + 1)%Z with 1%Z. change (1 - 1)%Z with 0%Z. change (1 + 1)%Z with 2%Z.
    apply Q; apply Hf; lia.
  - replace (w * (2 * dd (coord a) f (d - 2) - mid_slope (coord a) f (d - 2))) with (2 * (w * dd (coord a) f (d - 2)) - w * mid_slope (coord a) f (d - 2)) by ring.
    rewrite dd_val, mid_val. apply Q; apply Hf; lia.
  - rewrite mid_val. assert (H1 := Hf (i + 1)%Z ltac:(lia)). assert (H2 := Hf (i - 1)%Z ltac:(lia)). assert (M0' := M0).
    apply Rabs_le_inv in H1, H2. apply Rabs_le. lra.
Qed.

Lemma herm_val j : (0 <= j <= d - 2)%Z -> let t := T - IZR j in
  herm_piece a f j X = (1 - t) ^ 2 * (1 + 2 * t) * f j + t ^ 2 * (3 - 2 * t) * f (j + 1)%Z
    + t * (1 - t) ^ 2 * (w * slope a f j) - t ^ 2 * (1 - t) * (w * slope a f (j + 1)).
Proof using All.
  intros Hj t. destruct a_good as (Ia & _). rewrite (herm_basis a f j X Ia ltac:(cbn [npts]; lia)).
  assert (E1 : local_coord a X j = t).
  { unfold local_coord, t, reg_pos. cbn [coord]. rewrite plus_IZR. field. lra. }
  assert (E2 : spacing a j = w).
  { unfold spacing. cbn [coord]. rewrite plus_IZR. ring. }
  rewrite E1, E2. reflexivity.
Qed.

(** Close to a node a piece is close to the node's value. *)
Lemma small_poly t p q m0 m1 : Rabs t <= 1 / 50 -> Rabs p <= M -> Rabs q <= M -> Rabs m0 <= 5 * M -> Rabs m1 <= 5 * M ->
  Rabs (t ^ 2 * (3 - 2 * t) * (q - p) + t * (1 - t) ^ 2 * m0 - t ^ 2 * (1 - t) * m1) <= 6 * M * Rabs t.
Proof using All.
  intros Bt Bp Bq B0 B1. assert (M0' := M0). assert (P := Rabs_pos t).
  replace (_ - _) with (t * (t * (3 - 2 * t) * (q - p) + (1 - t) ^ 2 * m0 + - (t * (1 - t) * m1))) by ring.
  rewrite Rabs_mult, Rmult_comm. apply Rmult_le_compat_r; auto.
  assert (T1 := Bt). apply Rabs_le_inv in T1.
  assert (C1 : Rabs (t * (3 - 2 * t)) <= 1 / 16).
  { eapply Rle_trans; [apply (abs_mul _ _ (1 / 50) (304 / 100)); [exact Bt|apply Rabs_le; lra]|lra]. }
  assert (C2 : Rabs (t * (1 - t)) <= 1 / 40).
  { eapply Rle_trans; [apply (abs_mul _ _ (1 / 50) (102 / 100)); [exact Bt|apply Rabs_le; lra]|lra]. }
  assert (C3 : Rabs ((1 - t) ^ 2) <= 21 / 20).
  { replace ((1 - t) ^ 2) with ((1 - t) * (1 - t)) by ring.
    eapply Rle_trans; [apply (abs_mul _ _ (102 / 100) (102 / 100)); apply Rabs_le; lra|lra]. }
  assert (Bd : Rabs (q - p) <= 2 * M).
  { apply Rabs_le_inv in Bp, Bq. apply Rabs_le. lra. }
  eapply Rle_trans; [apply abs_add; [apply abs_add; [exact (abs_mul _ _ _ _ C1 Bd)|exact (abs_mul _ _ _ _ C3 B0)]|
    rewrite Rabs_Ropp; exact (abs_mul _ _ _ _ C2 B1)]|]. lra.
Qed.

Lemma herm_near_left j : (0 <= j <= d - 2)%Z -> Rabs (T - IZR j) <= 1 / 50 -> Rabs (herm_piece a f j X - f j) <= 6 * M * Rabs (T - IZR j).
Proof using All.
  intros Hj Hb. rewrite (herm_val j Hj). cbv zeta. set (t := T - IZR j) in *.
  match goal with |- Rabs ?L <= _ => replace L with (t ^ 2 * (3 - 2 * t) * (f (j + 1)%Z - f j) + t * (1 - t) ^ 2 * (w * slope a f j) - t ^ 2 * (1 - t) * (w * slope a f (j + 1))) by ring end.
  apply small_poly; auto; try (apply Hf; lia); apply slope_bound; lia.
Qed.
Lemma herm_near_right j : (0 <= j <= d - 2)%Z -> Rabs (T - IZR (j + 1)) <= 1 / 50 -> Rabs (herm_piece a f j X - f (j + 1)%Z) <= 6 * M * Rabs (T - IZR (j + 1)).
Proof using All.
  intros Hj Hb. rewrite (herm_val j Hj). cbv zeta. set (t := T - IZR (j + 1)) in *.
  replace (T - IZR j) with (t + 1) by (unfold t; rewrite plus_IZR; ring).
  match goal with |- Rabs ?L <= _ => replace L with ((- t) ^ 2 * (3 - 2 * - t) * (f j - f (j + 1)%Z) + - t * (1 - - t) ^ 2 * (w * - slope a f (j + 1)) - (- t) ^ 2 * (1 - - t) * (w * - slope a f j)) by ring end.
  rewrite <- (Rabs_Ropp t) in *.
  apply small_poly; auto; try (apply Hf; lia); rewrite Ropp_mult_distr_r_reverse, Rabs_Ropp; apply slope_bound; lia.
Qed.

Lemma piece_node j n : (cub_lo lin <= j <= cub_hi lin a)%Z -> n = j \/ n = (j + 1)%Z -> (0 <= n < d)%Z -> Rabs (T - IZR n) <= 1 / 50 ->
  Rabs (cub_piece lin a f j X - f n) <= 6 * M * Rabs (T - IZR n).
Proof using All.
  intros Hj Hn Rn Hb. assert (Q : X = s + w * T) by (unfold reg_pos; field; lra). assert (P := Rabs_pos (T - IZR n)). assert (M0' := M0).
  assert (Lin : forall k, (0 <= k < d)%Z -> Rabs (f k + slope a f k * (X - coord a k) - f k) <= 6 * M * Rabs (T - IZR k)).
  { intros k Hk'. replace (f k + slope a f k * (X - coord a k) - f k) with ((w * slope a f k) * (T - IZR k)) by (cbn [coord]; rewrite Q at 1; ring).
    rewrite Rabs_mult. apply Rmult_le_compat_r; [apply Rabs_pos|]. assert (S := slope_bound k Hk'). lra. }
  unfold cub_piece. cbn [npts]. unfold cub_lo, cub_hi in Hj. cbn [npts] in Hj.
  destruct lin; cbn [andb].
  - destruct (Z.eqb_spec j (-1)); [|destruct (Z.eqb_spec j (d - 1))].
    + assert (n = 0)%Z by lia. subst n. apply Lin. lia.
    + assert (n = d - 1)%Z by lia. subst n. apply Lin. lia.
    + destruct Hn; subst n; [apply herm_near_left|apply herm_near_right]; auto; lia.
  - destruct Hn; subst n; [apply herm_near_left|apply herm_near_right]; auto; lia.
Qed.
End Pieces.

Section Axis.
Variables (start h x : fl) (d : Z) (kappa : R).
Notation s := (B2R start).
Notation w := (B2R h).
Notation X := (B2R x).
Notation E := (u * kappa).
Hypothesis Fs : fin start.
Hypothesis Fh : fin h.
Hypothesis Fx : fin x.
Hypothesis Ph : 0 < w.
Hypothesis Hd : (4 <= d)%Z.
Hypothesis Hs : Rabs s <= kappa * w.
Hypothesis Ht : Rabs (s + w * IZR (d - 1)) <= kappa * w.
Hypothesis Hk : kappa * w <= bpow radix2 (emax - 3).
Hypothesis HE : 2000 * E <= 1.
Hypothesis Hx : s <= X <= s + w * IZR (d - 1).
Hypothesis Hprec : (prec <= 64)%Z.
Notation T := (reg_pos prec emax start h x).
Notation a := (mkAxis d (fun i => s + w * IZR i)).

Lemma facts : u <= 2 * E /\ u <= / 64 /\ 504 * E <= 1 /\ 0 < E /\ X = s + w * T /\ 0 <= T <= IZR (d - 1) /\ (2 <= d)%Z.
Proof using All.
  assert (U := u_pos prec).
  assert (K : / 2 <= kappa).
  { apply Rabs_le_inv in Hs. apply Rabs_le_inv in Ht. assert (D : 1 <= IZR (d - 1)) by (apply IZR_le; lia).
    assert (IZR (d - 1) <= 2 * kappa) by (apply Rmult_le_reg_l with w; auto; lra). lra. }
  assert (u * / 2 <= E) by (apply Rmult_le_compat_l; lra).
  assert (Q : X = s + w * T) by (unfold reg_pos; field; lra).
  assert (0 <= T <= IZR (d - 1)) by (split; apply Rmult_le_reg_l with w; auto; lra).
  repeat split; try lra; try lia.
Qed.

Lemma position n : (0 <= n <= d - 2)%Z -> Rabs (T - IZR n) <= 103 / 50 ->
  fin (reg_dtp o false start h x n) /\ Rabs (B2R (reg_dtp o false start h x n) - (T - IZR n)) <= 12 * E.
Proof using All.
  intros Hi Hti. destruct facts as (U2 & U64 & H504 & E0 & Q & _ & D2). assert (U := u_pos prec).
  destruct (eta_small prec emax Hp He U64) as (N1 & _). assert (N := eta_pos prec emax).
  destruct (node_error prec emax Hp He start h x d kappa Fs Fh Fx Ph D2 Hs Ht Hk H504 Hx Hprec false n Hi) as (Fm & Em).
  unfold reg_dtp. set (m := fadd o start _) in *. set (t := T - IZR n) in *.
  assert (EW : 0 <= E * w) by (apply Rmult_le_pos; lra).
  assert (UE : E * w <= / 2000 * w) by (apply Rmult_le_compat_r; lra).
  assert (D1 : Rabs ((X - B2R m) - w * t) <= 31 / 10 * (E * w)).
  { replace ((X - B2R m) - w * t) with (- (B2R m - (s + w * IZR n))) by (unfold t; rewrite Q at 1; ring). rewrite Rabs_Ropp. exact Em. }
  assert (WT : Rabs (w * t) <= w * (103 / 50)).
  { rewrite Rabs_mult, (Rabs_pos_eq w) by lra. apply Rmult_le_compat_l; lra. }
  assert (Dm : Rabs (X - B2R m) <= 207 / 100 * w).
  { replace (X - B2R m) with ((X - B2R m - w * t) + w * t) by ring. eapply Rle_trans; [apply abs_add; [exact D1|exact WT]|]. lra. }
  assert (B2 : bpow radix2 (emax - 1) = 4 * bpow radix2 (emax - 3)).
  { replace (emax - 1)%Z with (2 + (emax - 3))%Z by lia. rewrite bpow_plus. reflexivity. }
  assert (B0 := bpow_gt_0 radix2 (emax - 3)).
  assert (K15 : 3 / 2 <= kappa).
  { apply Rabs_le_inv in Hs. apply Rabs_le_inv in Ht. assert (D : 3 <= IZR (d - 1)) by (apply IZR_le; lia).
    assert (IZR (d - 1) <= 2 * kappa) by (apply Rmult_le_reg_l with w; auto; lra). lra. }
  assert (WK : 3 / 2 * w <= kappa * w) by (apply Rmult_le_compat_r; lra).
  destruct (sub_ok _ _ Hp He x m Fx Fm) as (F1 & V1); [apply (rnd_lt prec emax Hp He); lra|].
  assert (E1 := rnd_rel prec emax Hp (X - B2R m) ltac:(apply on_grid_sub; apply on_grid_fl)). rewrite <- V1 in E1.
  set (p := fsub o x m) in *.
  assert (UW : u * w <= 2 * (E * w)).
  { replace (2 * (E * w)) with (2 * E * w) by ring. apply Rmult_le_compat_r; lra. }
  assert (D3 : Rabs (B2R p - w * t) <= 73 / 10 * (E * w)).
  { replace (B2R p - w * t) with ((B2R p - (X - B2R m)) + ((X - B2R m) - w * t)) by ring.
    eapply Rle_trans; [apply abs_add; [exact E1|exact D1]|].
    assert (u * Rabs (X - B2R m) <= u * (207 / 100 * w)) by (apply Rmult_le_compat_l; lra). lra. }
  assert (D4 : Rabs (B2R p / w - t) <= 73 / 10 * E).
  { replace (B2R p / w - t) with ((B2R p - w * t) / w) by (field; lra). unfold Rdiv at 1.
    rewrite Rabs_mult, (Rabs_pos_eq (/ w)) by (left; apply Rinv_0_lt_compat; auto).
    apply Rmult_le_reg_r with w; auto. rewrite Rmult_assoc, Rinv_l, Rmult_1_r by lra. lra. }
  assert (D5 : Rabs (B2R p / w) <= 207 / 100).
  { replace (B2R p / w) with (t + (B2R p / w - t)) by ring. eapply Rle_trans; [apply abs_add; [exact Hti|exact D4]|]. lra. }
  assert (Big : 4 <= bpow radix2 (emax - 1)).
  { replace 4 with (bpow radix2 2) by reflexivity. apply bpow_le. assert (P := prec_6 _ _ Hp He U64). unfold Prec_lt_emax in He. lia. }
  destruct (div_ok _ _ Hp He p h F1 ltac:(lra)) as (F2 & V2); [apply (rnd_lt prec emax Hp He); lra|].
  split; [exact F2|]. rewrite V2. assert (E3 := rnd_abs prec emax Hp (B2R p / w)).
  replace (rnd (B2R p / w) - t) with ((rnd (B2R p / w) - B2R p / w) + (B2R p / w - t)) by ring.
  eapply Rle_trans; [apply abs_add; [exact E3|exact D4]|].
  assert (u * Rabs (B2R p / w) <= u * (207 / 100)) by (apply Rmult_le_compat_l; lra). lra.
Qed.

Variables (lin : bool) (f : Z -> R) (M : R).
Hypothesis Hf : forall i, (0 <= i < d)%Z -> Rabs (f i) <= M.

Lemma in_cell_T j : (0 <= j <= d - 2)%Z -> 0 <= T - IZR j <= 1 -> in_cell a X j.
Proof using All.
  intros Hj R. destruct facts as (_ & _ & _ & _ & Q & _). split; [cbn [npts]; lia|]. cbn [coord]. rewrite plus_IZR.
  assert (w * 0 <= w * (T - IZR j)) by (apply Rmult_le_compat_l; lra).
  assert (w * (T - IZR j) <= w * 1) by (apply Rmult_le_compat_l; lra). split; right; lra.
Qed.

(** Using the wrong one of two neighbouring pieces. *)
Lemma cub_piece_error j : (-1 <= j <= d - 1)%Z -> IZR j - 6 * E <= T <= IZR j + 1 + 6 * E ->
  Rabs (cub_piece lin a f (if lin then j else Z.min (Z.max j 0) (d - 2)) X - cub1 lin a X f) <= 72 * E * M.
Proof using All.
  intros Hj Hb. destruct facts as (_ & _ & _ & E0 & Q & (T0 & T1) & _). assert (M0' := M0 d Hd f M Hf). destruct (a_good start h d Ph Hd) as (Ia & Na).
  assert (EM : 0 <= E * M) by (apply Rmult_le_pos; lra).
  assert (In : coord a 0 <= X <= coord a (npts a - 1) \/ lin = false).
  { left. cbn [coord npts]. change (IZR 0) with 0. lra. }
  set (jc := if lin then j else Z.min (Z.max j 0) (d - 2)).
  assert (Rj : (cub_lo lin <= jc <= cub_hi lin a)%Z) by (unfold jc, cub_lo, cub_hi; cbn [npts]; destruct lin; lia).
  assert (Two : forall n j', (n = jc \/ n = jc + 1)%Z -> (0 <= j' <= d - 2)%Z -> (n = j' \/ n = j' + 1)%Z -> (0 <= n < d)%Z ->
    Rabs (T - IZR n) <= 6 * E -> 0 <= T - IZR j' <= 1 -> Rabs (cub_piece lin a f jc X - cub1 lin a X f) <= 72 * E * M).
  { intros n j' H1 H2 H3 H4 H5 H6.
    rewrite (@cub1_herm a Ia Na lin f X j' (in_cell_T j' H2 H6) In).
    rewrite <- (@cub_piece_herm a lin f j' X) by (cbn [npts]; lia).
    assert (N1 := piece_node start h x d Ph Hd lin f M Hf jc n Rj H1 H4 ltac:(lra)).
    assert (N2 := piece_node start h x d Ph Hd lin f M Hf j' n ltac:(unfold cub_lo, cub_hi; cbn [npts]; destruct lin; lia) H3 H4 ltac:(lra)).
    replace (cub_piece lin a f jc X - cub_piece lin a f j' X) with ((cub_piece lin a f jc X - f n) + - (cub_piece lin a f j' X - f n)) by ring.
    eapply Rle_trans; [apply abs_add; [exact N1|rewrite Rabs_Ropp; exact N2]|].
    assert (6 * M * Rabs (T - IZR n) <= 6 * M * (6 * E)) by (apply Rmult_le_compat_l; lra). lra. }
  rewrite minus_IZR in T1.
  assert (Ib : - (1) <= IZR j <= IZR d - 1).
  { split; [change (- (1)) with (IZR (-1)); apply IZR_le; lia|rewrite <- minus_IZR; apply IZR_le; lia]. }
  assert (ZI : forall p q, IZR p < IZR q + 1 -> (p <= q)%Z).
  { intros p q H. rewrite <- plus_IZR in H. apply lt_IZR in H. lia. }
  destruct (Rle_lt_dec T (IZR jc)) as [C|C]; [|destruct (Rle_lt_dec (IZR jc + 1) T) as [C'|C']].
  - destruct (Z_le_gt_dec jc 0) as [L|L].
    { (* T = 0 *)
      assert (IZR jc <= 0) by (apply IZR_le; lia). assert (J : jc = 0%Z) by (apply Z.le_antisymm; auto; apply ZI; change (IZR 0) with 0; lra).
      apply (Two 0%Z 0%Z); try lia; change (IZR 0) with 0; rewrite ?Rabs_pos_eq; rewrite J in C; change (IZR 0) with 0 in C; lra. }
    assert (J : jc = j).
    { unfold jc in *. destruct lin; auto. destruct (Z_le_gt_dec j (d - 2)); [lia|].
      exfalso. replace (Z.min (Z.max j 0) (d - 2)) with (d - 2)%Z in C by lia. rewrite minus_IZR in C.
      assert (IZR d - 1 <= IZR j) by (rewrite <- minus_IZR; apply IZR_le; lia). lra. }
    rewrite J in *.
    apply (Two j (j - 1)%Z); try lia; rewrite ?minus_IZR; try lra. apply Rabs_le. lra.
  - assert (J : (jc + 1 <= d - 1)%Z) by (apply ZI; rewrite plus_IZR, minus_IZR; lra).
    destruct (Z.eq_dec jc (d - 2)) as [J'|J'].
    { (* T = d - 1 *)
      apply (Two (d - 1)%Z (d - 2)%Z); try lia; rewrite !minus_IZR; rewrite J', minus_IZR in C'; [|lra].
      apply Rabs_le. lra. }
    assert (J2 : jc = j).
    { unfold jc in *. destruct lin; auto. destruct (Z_le_gt_dec 0 j); [lia|].
      exfalso. replace (Z.min (Z.max j 0) (d - 2)) with 0%Z in C' by lia. change (IZR 0) with 0 in C'.
      assert (IZR j <= -1) by (apply IZR_le; lia). lra. }
    rewrite J2 in *.
    assert (L : (-1 <= j)%Z) by lia.
    apply (Two (j + 1)%Z (j + 1)%Z); try lia; rewrite ?plus_IZR; try lra. apply Rabs_le. lra.
  - assert (L1 : (jc <= d - 2)%Z) by (apply ZI; rewrite minus_IZR; lra).
    assert (L0 : (0 <= jc)%Z) by (apply ZI; lra).
    rewrite (@cub1_herm a Ia Na lin f X jc (in_cell_T jc ltac:(lia) ltac:(lra)) In).
    rewrite (@cub_piece_herm a lin f jc X) by (cbn [npts]; lia).
    rewrite Rminus_diag_eq by reflexivity. rewrite Rabs_R0. lra.
Qed.
End Axis.

Section Node.
Variables (start h x : fl) (d : Z) (kappa : R).
Notation s := (B2R start).
Notation w := (B2R h).
Notation X := (B2R x).
Notation E := (u * kappa).
Hypothesis Fs : fin start.
Hypothesis Fh : fin h.
Hypothesis Fx : fin x.
Hypothesis Ph : 0 < w.
Hypothesis Hd : (4 <= d)%Z.
Hypothesis Hs : Rabs s <= kappa * w.
Hypothesis Ht : Rabs (s + w * IZR (d - 1)) <= kappa * w.
Hypothesis Hk : kappa * w <= bpow radix2 (emax - 3).
Hypothesis HE : 2000 * E <= 1.
Hypothesis Hx : s <= X <= s + w * IZR (d - 1).
Hypothesis Hprec : (prec <= 64)%Z.
Notation T := (reg_pos prec emax start h x).
Notation a := (mkAxis d (fun i => s + w * IZR i)).

Lemma creg_cell_near c : exists i sat j, creg_cell o c start h d x = Ok (i, sat) /\ (0 <= i <= d - 4)%Z /\ cub_cell_sat d i sat j /\
  (-1 <= j <= d - 1)%Z /\ IZR j - 6 * E <= T <= IZR j + 1 + 6 * E.
Proof using All.
  destruct (facts start h x d kappa) as (U2 & U64 & H504 & E0 & Q & (T0 & T1) & D2); auto.
  destruct (cell_error prec emax Hp He start h x d kappa Fs Fh Fx Ph D2 Hs Ht Hk H504 Hx Hprec) as (q & Eq & _ & Er & Ei).
  set (z := Zfloor (B2R q)) in *. apply Rabs_le_inv in Er.
  assert (L := Zfloor_lb (B2R q) : IZR z <= B2R q). assert (M := Zfloor_ub (B2R q) : B2R q < IZR z + 1).
  assert (Z0 : (-1 <= z)%Z).
  { assert (-2 < z)%Z; [|lia]. apply lt_IZR. lra. }
  assert (Z1 : (z <= d - 1)%Z).
  { assert (z < d)%Z; [|lia]. apply lt_IZR. rewrite minus_IZR in T1. lra. }
  assert (Zb : (z <= isize_max)%Z).
  { destruct (@to_isize_floor _ _ Hp He _ _ Ei) as (_ & _ & R). lia. }
  exists (Z.min (Z.max (z - 1) 0) (d - 4)), (creg_sat d (z - 1)), z. split; [|split; [lia|split; [|split; [lia|]]]].
  - unfold creg_cell. rewrite <- Eq, Ei. cbn [ok_or bind]. rewrite isize_sub_ok by (unfold isize_min, isize_max in *; lia). reflexivity.
  - unfold cub_cell_sat, creg_sat.
    destruct (Z.ltb_spec (z - 1) (-1)); [lia|]. destruct (Z.eqb_spec (z - 1) (-1)); [lia|].
    destruct (Z.ltb_spec (d - 3) (z - 1)); [lia|]. destruct (Z.eqb_spec (z - 1) (d - 3)); lia.
  - lra.
Qed.

Theorem cubic_axis_error c : exists i sat, creg_cell o c start h d x = Ok (i, sat) /\
  forall fo lin vs B, 0 <= B <= bpow radix2 (emax - 8) -> (forall i, fin (vs i) /\ Rabs (B2R (vs i)) <= B) ->
  let r := reg_innerp o c fo lin sat (creg_dtp o start h x i) [vs i; vs (i + 1)%Z; vs (i + 2)%Z; vs (i + 3)%Z] in
  fin r /\ Rabs (B2R r - cub1 lin a X (fun i => B2R (vs i))) <= 1272 * E * B + 1200 * eta.
Proof using All.
  destruct (creg_cell_near c) as (i & sat & j & Ec & Hi & Hsat & Hj & Hb). exists i, sat. split; [exact Ec|].
  intros fo lin vs B HB Hv. cbv zeta.
  destruct (facts start h x d kappa) as (U2 & U64 & H504 & E0 & Q & (T0 & T1) & D2); auto. rewrite minus_IZR in T1.
  assert (SP : Rabs (T - IZR (i + 1)) <= 103 / 50 /\ sat_pos sat (T - IZR (i + 1))).
  { rewrite plus_IZR. destruct sat; cbn [cub_cell_sat sat_pos] in *; destruct Hsat as (S1 & S2).
    - subst j. rewrite plus_IZR in Hb. split; apply Rabs_le; lra.
    - subst i j. split; apply Rabs_le; lra.
    - subst i j. split; [|split]; apply Rabs_le; lra.
    - subst i j. rewrite minus_IZR in *. split; apply Rabs_le; lra.
    - subst i j. rewrite minus_IZR in *. split; [|split]; apply Rabs_le; lra. }
  destruct SP as (SP1 & SP2).
  destruct (position start h x d kappa Fs Fh Fx Ph Hd Hs Ht Hk HE Hx Hprec (i + 1)%Z ltac:(lia) SP1) as (Ft & Et).
  change (reg_dtp o false start h x (i + 1)) with (creg_dtp o start h x i) in *.
  assert (HWe : eta <= eta <= / 2000).
  { destruct (eta_small prec emax Hp He U64) as (N1 & _). assert (U := u_pos prec). lra. }
  destruct (reg_near prec emax Hp He B E eta U2 HE (proj1 HB) (proj2 HB) HWe c fo lin sat (creg_dtp o start h x i) (T - IZR (i + 1))
    (vs i) (vs (i + 1)%Z) (vs (i + 2)%Z) (vs (i + 3)%Z) Ft Et SP2) as (F & _ & Er); try apply Hv.
  split; [exact F|].
  assert (P : reg_innerp ROps c fo lin sat (T - IZR (i + 1)) [B2R (vs i); B2R (vs (i + 1)%Z); B2R (vs (i + 2)%Z); B2R (vs (i + 3)%Z)]
     = cub_piece lin a (fun i => B2R (vs i)) (if lin then j else Z.min (Z.max j 0) (d - 2)) X).
  { replace (T - IZR (i + 1)) with (creg_dtp ROps s w X i).
    2:{ unfold creg_dtp, uf, reg_pos. simpl. field. lra. }
    rewrite (@reg_rect_inner c fo fo lin sat s w X i) by auto.
    assert (Ga : good_axis 4 a) by (split; [apply reg_axis_inc; auto|exact Hd]).
    exact (@cub_axis_piece a lin X i sat j (fun i => B2R (vs i)) Ga Hsat c fo). }
  rewrite P in Er.
  assert (Pe := cub_piece_error start h x d kappa Fs Fh Fx Ph Hd Hs Ht Hk HE Hx Hprec lin (fun i => B2R (vs i)) B
    (fun i _ => proj2 (Hv i)) j Hj Hb).
  match type of Er with Rabs (?r - ?p) <= _ => match type of Pe with Rabs (_ - ?q) <= _ =>
    replace (r - q) with ((r - p) + (p - q)) by ring end end.
  eapply Rle_trans; [apply abs_add; [exact Er|exact Pe]|]. lra.
Qed.

Lemma cubic_axis_norm lin f M : (forall i, (0 <= i < d)%Z -> Rabs (f i) <= M) -> Rabs (cub1 lin a X f) <= 5 / 4 * M.
Proof using All.
  intros Hf. replace (5 / 4) with (cubic_gain 1) by (unfold cubic_gain; field).
  apply (cub1_norm a (@reg_axis_inc d s w Ph) Hd); auto.
  - intros i Hi _. unfold spacing. cbn [coord]. rewrite !plus_IZR. lra.
  - cbn [coord npts]. change (IZR 0) with 0. lra.
Qed.
End Node.

(** ** The interpolators *)
Lemma float_cubic_regular_inv c lin dims starts steps vals eval : float_cubic_regular Hp He c lin dims starts steps vals eval ->
  reg_wf 4 (mkRegular dims starts steps vals) /\ Forall (fun h => flt o (fzero o) h = true) steps /\
  exists fma, forall x, length x = length dims ->
  eval x = do os <- creg_cells o c (mkRegular dims starts steps vals) x ;
           Ok (tens 4 (entry (fzero o) dims vals) (mcr_nd o c fma lin (mkRegular dims starts steps vals) x os) (map fst os) (length dims) []).
Proof.
  intros [s Hi H|m s Hi H].
  - assert (P := mcr_steps_pos _ _ Hp He _ _ _ _ _ _ _ H). destruct (mcr_new_inv o lin Hi H) as (W & ->). split; [auto|]. split; [auto|].
    exists (use_fma c). intros x Lx. apply mcr_char; auto. apply usize_converts_B.
  - assert (P := mcrr_steps_pos _ _ Hp He _ _ _ _ _ _ _ _ H). destruct (mcrr_new_inv o m lin Hi H) as (W & -> & Hm). split; [auto|]. split; [auto|].
    exists false. intros x Lx. apply mcrr_char; auto. apply usize_converts_B.
Qed.

Theorem cubic_error_regular c lin dims starts steps vals eval x A kappa :
  float_cubic_regular Hp He c lin dims starts steps vals eval ->
  Forall (fun v => fin v) x -> axes_within prec emax kappa starts steps dims ->
  SpecReal.inside_grid (reg_axes dims (map B2R starts) (map B2R steps)) (map B2R x) ->
  cubic_values prec emax 1 (5 / 4) (regular_gamma prec kappa) (length dims) A vals ->
  2000 * INR (length dims) * (u * kappa) <= 1 -> (prec <= 64)%Z ->
  Forall (good_axis 4) (reg_axes dims (map B2R starts) (map B2R steps)) /\
  exists y, eval x = Ok y /\ fin y /\
  Rabs (B2R y - tenL (ops1 (cub1 lin) (reg_axes dims (map B2R starts) (map B2R steps)) (map B2R x))
                     (entry 0 (map npts (reg_axes dims (map B2R starts) (map B2R steps))) (map B2R vals)))
   <= cubic_error prec emax (5 / 4) (regular_gamma prec kappa) (length dims) A.
Proof.
  intros H Fx Hax In (A0 & HA & Hv) HN Hprec.
  destruct (float_cubic_regular_inv _ _ _ _ _ _ _ H) as (W & P & fma & E).
  assert (W' := W). destruct W' as (W0 & W1 & W2 & W3 & W4). cbn [r_dims r_starts r_steps r_vals] in *.
  assert (L1 : length (map (@B2R prec emax) starts) = length dims) by (rewrite map_length; auto).
  assert (L2 : length (map (@B2R prec emax) steps) = length dims) by (rewrite map_length; auto).
  assert (La := reg_axes_length _ _ _ L1 L2). assert (Dm := reg_axes_npts _ _ _ L1 L2).
  assert (Lx : length x = length dims) by (rewrite <- La, <- (proj1 In), map_length; auto). rewrite E by auto.
  set (st := fun k => nth k starts (fzero o)). set (sp := fun k => nth k steps (fzero o)).
  set (xx := fun k => nth k x (fzero o)). set (dd := fun k => nth k dims 0%Z).
  assert (K : forall k, (k < length dims)%nat -> axis_within prec emax kappa (st k) (sp k) (dd k)).
  { intros k Hk. apply (Hax k); apply nth_error_nth_some; lia. }
  assert (Good : Forall (good_axis 4) (reg_axes dims (map B2R starts) (map B2R steps))).
  { apply reg_axes_good; auto. rewrite Forall_map. apply Forall_nth. intros k d0 Hk. rewrite (nth_indep _ d0 (fzero o)) by auto.
    assert (Q : flt o (fzero o) (sp k) = true) by (apply (Forall_nth_lt (fzero o) P); lia).
    apply ltb_fin in Q; auto. apply (K k). lia. }
  split; [exact Good|].
  assert (N1 : 1 <= INR (length dims)) by (change 1 with (INR 1); apply le_INR; lia).
  assert (U := u_pos prec). assert (Eta := eta_pos prec emax).
  set (axes := reg_axes dims (map B2R starts) (map B2R steps)) in *.
  assert (NA : forall k, (k < length dims)%nat -> nth k axes ax0 = mkAxis (dd k) (fun i => B2R (st k) + B2R (sp k) * IZR i)).
  { intros k Hk. unfold axes. rewrite reg_axes_nth by auto. rewrite !(nth_B2R prec emax Hp He). reflexivity. }
  assert (AX : forall k, (k < length dims)%nat -> fin (st k) /\ fin (sp k) /\ fin (xx k) /\ 0 < B2R (sp k) /\ (4 <= dd k)%Z /\
    Rabs (B2R (st k)) <= kappa * B2R (sp k) /\ Rabs (B2R (st k) + B2R (sp k) * IZR (dd k - 1)) <= kappa * B2R (sp k) /\
    kappa * B2R (sp k) <= bpow radix2 (emax - 3) /\
    B2R (st k) <= B2R (xx k) <= B2R (st k) + B2R (sp k) * IZR (dd k - 1)).
  { intros k Hk. destruct (K k Hk) as (F0 & F1 & H1 & H2 & H3).
    split; [auto|]. split; [auto|]. split; [apply (Forall_nth_lt (fzero o) Fx); lia|].
    split. { assert (Q : flt o (fzero o) (sp k) = true) by (apply (Forall_nth_lt (fzero o) P); lia). apply ltb_fin in Q; auto. }
    split; [apply (Forall_nth_lt 0%Z W3 Hk)|]. split; [auto|]. split; [auto|]. split; [auto|].
    destruct In as (_ & In). assert (R := In k (nth k axes ax0) ltac:(apply nth_error_nth_some; lia)).
    rewrite NA, (nth_B2R prec emax Hp He) in R by auto. cbn [coord npts] in R. fold (xx k) in R.
    change (IZR 0) with 0 in R. lra. }
  assert (K0 : 0 <= u * kappa).
  { apply Rmult_le_pos; [lra|]. destruct (AX 0%nat ltac:(lia)) as (F1 & F2 & F3 & P1 & D1 & B1 & B2 & B3 & R).
    apply Rmult_le_reg_r with (B2R (sp 0%nat)); auto. assert (Q := Rabs_pos (B2R (st 0%nat))). lra. }
  assert (HE : 2000 * (u * kappa) <= 1).
  { assert (1 * (u * kappa) <= INR (length dims) * (u * kappa)) by (apply Rmult_le_compat_r; lra). lra. }
  assert (CE : forall k, (k < length dims)%nat -> exists p, creg_cell o c (st k) (sp k) (dd k) (xx k) = Ok p /\
    forall fo lin vs B, 0 <= B <= bpow radix2 (emax - 8) -> (forall i, fin (vs i) /\ Rabs (B2R (vs i)) <= B) ->
    let r := reg_innerp o c fo lin (snd p) (creg_dtp o (st k) (sp k) (xx k) (fst p))
      [vs (fst p); vs (fst p + 1)%Z; vs (fst p + 2)%Z; vs (fst p + 3)%Z] in
    fin r /\ Rabs (B2R r - cub1 lin (nth k axes ax0) (B2R (xx k)) (fun i => B2R (vs i))) <= 1272 * (u * kappa) * B + 1200 * eta).
  { intros k Hk. destruct (AX k Hk) as (F1 & F2 & F3 & P1 & D1 & B1 & B2 & B3 & R).
    destruct (cubic_axis_error (st k) (sp k) (xx k) (dd k) kappa F1 F2 F3 P1 D1 B1 B2 B3 HE R Hprec c) as (i & sat & Ei & Er).
    exists (i, sat). split; [exact Ei|]. rewrite NA by auto. exact Er. }
  destruct (AX 0%nat ltac:(lia)) as (F01 & F02 & F03 & P01 & D01 & B01 & B02 & B03 & R0).
  destruct (facts (st 0%nat) (sp 0%nat) (xx 0%nat) (dd 0%nat) kappa F01 F02 F03 P01 D01 B01 B02 B03 HE R0 Hprec) as (U2 & U64 & _).
  destruct (mapM_total _ _ (fun k => creg_cell o c (st k) (sp k) (dd k) (xx k)) (seq 0 (length dims))) as (os & Eos).
  { intros k Hk. apply in_seq in Hk. destruct (CE k ltac:(lia)) as (i & -> & _). eauto. }
  assert (Eos' : creg_cells o c (mkRegular dims starts steps vals) x = Ok os) by exact Eos.
  rewrite Eos'. cbn [bind].
  eexists. split; [reflexivity|].
  assert (Lo := mapM_length _ _ Eos). rewrite seq_length in Lo.
  assert (Lm : length (map B2R x) = length axes) by (rewrite map_length; lia).
  assert (LF := good_cub lin _ Lm Good). rewrite Dm in *.
  assert (Hnd : forall k, (k < length dims)%nat -> nth k (ops1 (cub1 lin) axes (map B2R x)) (fun _ => 0) = cub1 lin (nth k axes ax0) (B2R (xx k))).
  { intros k Hk. rewrite ops1_nth by (rewrite ?map_length; lia). rewrite (nth_B2R prec emax Hp He). reflexivity. }
  assert (PE : bpow radix2 emin = u * bpow radix2 (3 - emax)) by (rewrite <- bpow_plus; f_equal; lia).
  assert (PX : bpow radix2 (3 - emax) <= / 4).
  { replace (/ 4) with (bpow radix2 (-2)) by (simpl; lra). apply bpow_le. assert (Q := prec_6 _ _ Hp He U64). unfold Prec_lt_emax in He. lia. }
  assert (NW : INR (length dims) * (1200 * eta) <= 1).
  { assert (eta <= / 4 * (u * kappa)).
    { assert (u * bpow radix2 (3 - emax) <= u * / 4) by (apply Rmult_le_compat_l; lra). lra. }
    assert (INR (length dims) * (1200 * eta) <= INR (length dims) * (1200 * (/ 4 * (u * kappa)))) by (apply Rmult_le_compat_l; lra). lra. }
  assert (g0 : 0 < 5 / 4 + regular_gamma prec kappa) by (unfold regular_gamma, roundoff; lra).
  destruct (tens4_error prec emax Hp He dims (map fst os) (entry (fzero o) dims vals) (ops1 (cub1 lin) axes (map B2R x))
     (mcr_nd o c fma lin (mkRegular dims starts steps vals) x os) (5 / 4) (regular_gamma prec kappa) (1200 * eta) A (bpow radix2 (emax - 8)))
     with (k := length dims) (suf := @nil Z) as (F & Er & _ & _).
  - exact LF.
  - intros idx. apply (entry_bound prec emax Hp He); auto.
  - lra.
  - unfold regular_gamma, roundoff. lra.
  - lra.
  - intros k f M Hk Hf. rewrite Hnd, NA by auto. destruct (AX k Hk) as (F1 & F2 & F3 & P1 & D1 & B1 & B2 & B3 & R).
    apply (cubic_axis_norm (st k) (sp k) (xx k) (dd k) kappa F1 F2 F3 P1 D1 B1 B2 B3 HE R Hprec). intros i _. apply Hf.
  - intros k vs B Hk HB Hvs. cbv zeta. rewrite Hnd by auto. unfold mcr_nd. cbn [r_starts r_steps].
    assert (Ek := @mapM_snoc_nth _ az _ _ _ Eos k Hk). cbv beta in Ek.
    destruct (CE k Hk) as (p & Ep & Er). rewrite Ep in Ek. injection Ek as Ek. rewrite nth_map_fst, <- Ek.
    exact (Er fma lin vs B HB Hvs).
  - eapply Rle_trans; [|exact HA]. apply Rmult_le_compat_l; [left; apply pow_lt; auto|lra].
  - lia.
  - split; [exact F|].
    assert (LO : length (ops1 (cub1 lin) axes (map B2R x)) = length dims) by (rewrite ops1_length by auto; lia).
    replace (firstn (length dims) (ops1 (cub1 lin) axes (map B2R x))) with (ops1 (cub1 lin) axes (map B2R x)) in Er by (rewrite <- LO, firstn_all; reflexivity).
    rewrite (tenL_ext _ (fun idx => B2R (entry (fzero o) dims vals (idx ++ []))) LF).
    2:{ intros idx _. rewrite app_nil_r. apply (entry_real prec emax Hp He). }
    unfold cubic_error. rewrite Nat.sub_1_r. eapply Rle_trans; [exact Er|].
    apply Rmult_le_compat_l; [apply Rmult_le_pos; [lra|left; apply pow_lt; auto]|]. unfold underflow. lra.
Qed.
End B.
