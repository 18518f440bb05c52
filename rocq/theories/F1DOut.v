(** Linear1D and LinearHoldLast1D in floating point, at points outside a regular grid. *)
From Coq Require Import Reals Lra Lia List Bool ZifyBool ZifyNat PeanoNat.
From Flocq Require Import Core.Core IEEE754.BinarySingleNaN.
From Verif Require Import Base Ops FInst ModelCore ModelOneDim Spec SpecOrder SpecIEEE.
From Verif Require Import CoreLemmas TensorLemmas SearchLemmas MethodLemmas MethodChar OrderLemmas GenLemmas FLemmas UtilProofs FProofs FProofs2 FError.
From Verif Require Import RInst SpecReal RTensor R1D RChar Interpolators Spec1D OneDimProofs SpecError SpecFloat1D SpecApprox SpecExtrap Extrap1D FExtrap F1D F1D2.
Import ListNotations.
Unset Implicit Arguments.
Open Scope list_scope.
Open Scope R_scope.

Section B.
Variables prec emax : Z.
Context (Hp : Prec_gt_0 prec) (He : Prec_lt_emax prec emax).
Notation fl := (binary_float prec emax).
Notation o := (BOps Hp He).
Notation emin := (3 - emax - prec)%Z.
Notation fin x := (is_finite x = true).
Notation small v := (@moderate prec emax v).
Notation u := (bpow radix2 (- prec)).
Notation eta := (/ 2 * bpow radix2 emin).

Variables (c : cfg) (start h x : fl) (vals : list fl) (g : regular1 fl) (kappa : R).
Notation n := (zlen vals).
Notation w := (B2R h).
Notation a := (mkAxis n (fun i => B2R start + w * IZR i)).
Notation vr := (map B2R vals).
Notation X := (B2R x).
Notation E := (u * kappa).
Notation d := (fzero o).
Notation T := (reg_pos prec emax start h x).
Notation stop := (fadd o start (fmul o h (uf o (n - 1)))).
Notation node i := (fadd o start (fmul o h (uf o i))).
Hypothesis Hn : (2 <= n <= isize_max)%Z.
Hypothesis Ph : 0 < w.
Hypothesis Hax : axis_within prec emax kappa start h n.
Hypothesis Fx : fin x.
Hypothesis HE : 504 * E <= 1.
Hypothesis Hprec : (prec <= 64)%Z.
Hypothesis Hx : Rabs X <= kappa * w.
Hypothesis Hg : r1_new o c start h vals = Ok g.
Hypothesis Out : X < coord a 0 \/ coord a (npts a - 1) < X.

Lemma out_hyps : fin start /\ fin h /\ (2 <= n)%Z /\ Rabs (B2R start) <= kappa * w /\
  Rabs (B2R start + w * IZR (n - 1)) <= kappa * w /\ kappa * w <= bpow radix2 (emax - 3).
Proof using All. destruct Hax as (F1 & F2 & H1 & H2 & H3). repeat split; auto; lia. Qed.

Lemma out_T : X = B2R start + w * T /\ (X < coord a 0 -> T < 0) /\ (coord a (npts a - 1) < X -> IZR (n - 1) < T).
Proof using All.
  assert (Q : X = B2R start + w * T) by (unfold reg_pos; field; lra). split; [exact Q|]. cbn [coord npts].
  split; intros L; apply Rmult_lt_reg_l with w; auto; lra.
Qed.

Lemma out_stop : fin stop /\ Rabs (B2R stop - (B2R start + w * IZR (n - 1))) <= 31 / 10 * (E * w).
Proof using All.
  destruct out_hyps as (Fs & Fh & H2 & Hs & Ht & Hk).
  assert (SI : B2R start <= B2R start <= B2R start + w * IZR (n - 1)).
  { assert (0 <= IZR (n - 1)) by (apply IZR_le; lia). assert (0 <= w * IZR (n - 1)) by (apply Rmult_le_pos; lra). lra. }
  exact (node_error_any prec emax Hp He start h start n kappa Fs Fh Fs Ph H2 Hs Ht Hk HE SI Hprec false (n - 1)%Z ltac:(lia)).
Qed.

(** What the cell search finds. *)
Lemma out_sample : exists i, in_cell a X i /\
  r1_at o c g x = Ok (mkSample (node i) (nth (Z.to_nat i) vals d) (fadd o (node i) h) (nth (Z.to_nat (i + 1)) vals d)
     (if flt o stop x then ExtrapHigh else if flt o x start then ExtrapLow else Inside)) /\
  (T < 0 -> i = 0%Z) /\ (IZR (n - 1) < T -> i = (n - 2)%Z).
Proof using All.
  destruct out_hyps as (Fs & Fh & H2 & Hs & Ht & Hk). destruct out_T as (XT & OL & OH).
  destruct (cell_error_any prec emax Hp He start h x n kappa Fs Fh Fx Ph H2 Hs Ht Hk HE Hx Hprec) as (q & Eq & Fq & Er & Ei).
  assert (O' : T < 0 \/ IZR (n - 1) < T) by (destruct Out; auto).
  destruct (cell_outside prec emax Hp He start h x n kappa Fs Fh Fx Ph H2 Hs Ht Hk HE Hx Hprec O') as (i & Ec & Ci).
  assert (Ie : Z.min (Z.max (Zfloor (B2R q)) 0) (n - 2) = i).
  { unfold reg_cell in Ec. rewrite <- Eq, Ei in Ec. cbn [ok_or bind] in Ec. congruence. }
  assert (Ri := proj1 Ci). cbn [npts] in Ri.
  assert (Eg : g = mkR1 start stop h vals).
  { unfold r1_new in Hg. rewrite usize_sub_ok in Hg by (unfold isize_max, two64 in *; lia). cbn [bind] in Hg.
    unfold uf. destruct (of_usize o (n - 1)) as [mf|]; cbn [ok_or bind] in Hg; [congruence|discriminate]. }
  assert (ZV : Z.of_nat (length vals) = n) by reflexivity.
  set (st := stop) in *.
  assert (EI : r1_index o c g x = Ok (i, if flt o st x then ExtrapHigh else if flt o x start then ExtrapLow else Inside)).
  { subst g. unfold r1_index. cbn [r1_start r1_step r1_stop r1_vals]. rewrite <- Eq, Ei. cbn [ok_or bind].
    rewrite usize_sub_ok by (unfold isize_max, two64 in *; lia). cbn [bind].
    rewrite as_isize_small by lia. rewrite Ie. unfold as_usize. rewrite Z.mod_small by (unfold isize_max, two64 in *; lia). reflexivity. }
  exists i. split; [exact Ci|]. split.
  - unfold r1_at. rewrite EI. cbn [bind]. subst g. cbn [r1_start r1_step r1_vals]. unfold uf.
    destruct (@of_usize_some prec emax Hp He i) as (fi & Ef). rewrite Ef. cbn [ok_or bind].
    rewrite (idx_nth _ d) by lia. cbn [bind].
    rewrite usize_add_ok by (unfold isize_max, two64 in *; lia). cbn [bind].
    rewrite (idx_nth _ d) by lia. reflexivity.
  - apply Rabs_le_inv in Er. assert (L := Zfloor_lb (B2R q)). assert (M := Zfloor_ub (B2R q)). set (z := Zfloor (B2R q)) in *.
    split; intros HT.
    + assert (z < 1)%Z by (apply lt_IZR; lra). lia.
    + assert (n - 3 < z)%Z; [|lia].
      apply lt_IZR. replace (n - 3)%Z with (n - 1 - 2)%Z by lia. rewrite minus_IZR. lra.
Qed.

(** The two computed nodes of a cell. *)
Lemma out_nodes i : (0 <= i <= n - 2)%Z -> let m := node i in let m1 := fadd o m h in
  small m /\ small m1 /\ Rabs (B2R m - (B2R start + w * IZR i)) <= 31 / 10 * (E * w) /\
  Rabs (B2R m1 - (B2R m + w)) <= 105 / 100 * (E * w).
Proof using All.
  intros Ri. destruct out_hyps as (Fs & Fh & H2 & Hs & Ht & Hk).
  apply (reg1_nodes prec emax Hp He c start h start vals g kappa); auto.
  cbn [coord npts]. assert (0 <= IZR (n - 1)) by (apply IZR_le; lia).
  assert (0 <= w * IZR (n - 1)) by (apply Rmult_le_pos; lra). lra.
Qed.

(** The line through the values of the outermost cell. *)
Theorem linear1_out A S : let G := 1 + 2 * overshoot a X in
  bounded_values prec emax A vals -> slopes_within S a vr -> S <= bpow radix2 (emax - 3) -> G * A <= bpow radix2 (emax - 4) ->
  forall e i, in_cell a X i -> let y := line_through o c (mkSample (node i) (nth (Z.to_nat i) vals d) (fadd o (node i) h) (nth (Z.to_nat (i + 1)) vals d) e) x in
  fin y /\ Rabs (B2R y - lin1 a X (val_at vr)) <= 40 * E * (G * A) + 202 / 100 * eta * (1 + w) * G.
Proof using All.
  intros G ((A0 & A1) & Hv) HS BS GA e i Ci. assert (N := eta_pos prec emax). assert (U := u_pos prec).
  destruct out_hyps as (Fs & Fh & H2 & Hs & Ht & Hk). destruct out_T as (XT & _).
  assert (Ri := proj1 Ci). cbn [npts] in Ri.
  destruct (out_nodes i Ri) as (Sm & Sm1 & Em & Em1).
  destruct (kappa_half_any prec emax Hp He start h x n kappa Fs Fh Fx Ph H2 Hs Ht Hk HE Hx Hprec) as (K1 & K2).
  destruct (u_small_any prec emax Hp He start h x n kappa Fs Fh Fx Ph H2 Hs Ht Hk HE Hx Hprec) as (U2 & U64).
  assert (Ia : increasing_axis a) by (apply reg_axis_inc; auto).
  assert (Na : (2 <= npts a)%Z) by (cbn [npts]; lia).
  assert (Loc : local_coord a X i = T - IZR i).
  { unfold local_coord, reg_pos. cbn [coord]. rewrite plus_IZR. field. lra. }
  destruct (local_any _ _ _ Ia Na Ci) as (At & _). rewrite Loc in At. fold G in At.
  assert (G1 : 1 <= G) by (unfold G; assert (Z := overshoot_nonneg a X); lra).
  set (m := node i) in *. set (m1 := fadd o m h) in *.
  set (y0 := nth (Z.to_nat i) vals d) in *. set (y1 := nth (Z.to_nat (i + 1)) vals d) in *.
  assert (ZV : Z.of_nat (length vals) = n) by reflexivity.
  assert (V0 : val_at vr i = B2R y0) by apply (nth_B2R prec emax Hp He).
  assert (V1 : val_at vr (i + 1) = B2R y1) by apply (nth_B2R prec emax Hp He).
  destruct (Forall_nth_lt d Hv (k := Z.to_nat i) ltac:(lia)) as (F0 & B0). fold y0 in F0, B0.
  destruct (Forall_nth_lt d Hv (k := Z.to_nat (i + 1)) ltac:(lia)) as (F1 & B1). fold y1 in F1, B1.
  assert (E0 : 0 <= E) by lra. assert (EW0 : 0 <= E * w) by (apply Rmult_le_pos; lra).
  assert (EW : E * w <= / 504 * w) by (apply Rmult_le_compat_r; lra).
  assert (GA1 : 1 * A <= G * A) by (apply Rmult_le_compat_r; lra).
  assert (EG0 : 0 <= E * G) by (apply Rmult_le_pos; lra).
  assert (EG1 : E * 1 <= E * G) by (apply Rmult_le_compat_l; lra).
  assert (EGA0 : 0 <= E * (G * A)) by (apply Rmult_le_pos; lra).
  assert (EGs : E * G <= / 504 * G) by (apply Rmult_le_compat_r; lra).
  assert (B2 : bpow radix2 (emax - 2) = 2 * bpow radix2 (emax - 3)).
  { replace (emax - 2)%Z with (1 + (emax - 3))%Z by lia. rewrite bpow_plus. reflexivity. }
  assert (B3 : bpow radix2 (emax - 3) = 2 * bpow radix2 (emax - 4)).
  { replace (emax - 3)%Z with (1 + (emax - 4))%Z by lia. rewrite bpow_plus. reflexivity. }
  set (t := T - IZR i) in *.
  set (D := B2R y1 - B2R y0). set (H := B2R m1 - B2R m). set (V := X - B2R m).
  assert (EH : Rabs (H - w) <= 105 / 100 * (E * w)).
  { replace (H - w) with (B2R m1 - (B2R m + w)) by (unfold H; ring). exact Em1. }
  assert (HH : 997 / 1000 * w <= H) by (apply Rabs_le_inv in EH; lra).
  assert (PH : 0 < H) by lra.
  assert (EV : Rabs (V - w * t) <= 31 / 10 * (E * w)).
  { replace (V - w * t) with (- (B2R m - (B2R start + w * IZR i))) by (unfold V, t; rewrite XT at 1; ring). rewrite Rabs_Ropp. exact Em. }
  assert (EWG : E * w <= E * w * G) by (assert (E * w * 1 <= E * w * G) by (apply Rmult_le_compat_l; lra); lra).
  assert (Et : Rabs (V / H - t) <= 42 / 10 * (E * G)).
  { replace (V / H - t) with (((V - w * t) + (w - H) * t) / H) by (field; lra).
    unfold Rdiv at 1. rewrite Rabs_mult, (Rabs_pos_eq (/ H)) by (left; apply Rinv_0_lt_compat; lra).
    apply Rmult_le_reg_r with H; [lra|]. rewrite Rmult_assoc, Rinv_l, Rmult_1_r by lra.
    assert (Q : Rabs (V - w * t + (w - H) * t) <= 31 / 10 * (E * w) + 105 / 100 * (E * w) * G).
    { apply abs_add; auto. apply abs_mul; auto. rewrite Rabs_minus_sym. exact EH. }
    assert (Q2 : 42 / 10 * (E * G) * (997 / 1000 * w) <= 42 / 10 * (E * G) * H) by (apply Rmult_le_compat_l; lra).
    replace (42 / 10 * (E * G) * (997 / 1000 * w)) with (42 / 10 * (997 / 1000) * (E * w * G)) in Q2 by ring. lra. }
  set (t' := V / H) in *. assert (VT : V = t' * H) by (unfold t'; field; lra).
  assert (At' : Rabs t' <= 101 / 100 * G).
  { replace t' with (t + (t' - t)) by ring. eapply Rle_trans; [apply abs_add; [exact At|exact Et]|]. lra. }
  assert (DD : Rabs D <= 2 * A).
  { unfold D. apply Rabs_le_inv in B0. apply Rabs_le_inv in B1. apply Rabs_le. lra. }
  assert (HSi := HS i ltac:(cbn [npts]; lia)). rewrite V0, V1 in HSi. cbn [coord] in HSi. rewrite plus_IZR in HSi.
  replace (B2R start + w * (IZR i + 1) - (B2R start + w * IZR i)) with w in HSi by ring. fold D in HSi.
  assert (S0 : 0 <= S).
  { apply Rmult_le_reg_r with w; auto. rewrite Rmult_0_l. eapply Rle_trans; [apply Rabs_pos|exact HSi]. }
  assert (SL : Rabs (D / H) <= bpow radix2 (emax - 2)).
  { unfold Rdiv. rewrite Rabs_mult, (Rabs_pos_eq (/ H)) by (left; apply Rinv_0_lt_compat; auto).
    apply Rmult_le_reg_r with H; auto. rewrite Rmult_assoc, Rinv_l, Rmult_1_r by lra.
    eapply Rle_trans; [exact HSi|]. apply Rle_trans with (2 * S * H).
    - assert (2 * S * (997 / 1000 * w) <= 2 * S * H) by (apply Rmult_le_compat_l; lra).
      assert (0 <= S * w) by (apply Rmult_le_pos; lra). lra.
    - apply Rmult_le_compat_r; lra. }
  assert (EP : D / H * V = t' * D) by (unfold t'; field; lra).
  assert (BP : Rabs (t' * D) <= 202 / 100 * (G * A)).
  { eapply Rle_trans; [apply abs_mul; [exact At'|exact DD]|]. lra. }
  assert (Sx : small x).
  { split; auto. assert (B1' : bpow radix2 (emax - 1) = 4 * bpow radix2 (emax - 3)).
    { replace (emax - 1)%Z with (2 + (emax - 3))%Z by lia. rewrite bpow_plus. reflexivity. }
    assert (0 < bpow radix2 (emax - 3)) by apply bpow_gt_0. lra. }
  intros y. destruct (line_err prec emax Hp He U64 c m m1 y0 y1 x e Sm Sm1 Sx ltac:(unfold H in PH; lra) F0 F1 ltac:(lra) ltac:(lra)) as (F & R).
  { fold D H. exact SL. } { fold D H V. rewrite EP. lra. }
  split; [exact F|]. fold D H V in R. rewrite EP in R. fold y in R.
  assert (BL : Rabs (B2R y0 + t' * D) <= 302 / 100 * (G * A)).
  { eapply Rle_trans; [apply abs_add; [exact B0|exact BP]|]. lra. }
  assert (WG0 : w <= w * G) by (assert (w * 1 <= w * G) by (apply Rmult_le_compat_l; lra); lra).
  assert (BV : Rabs V <= 101 / 100 * (w * G)).
  { replace V with (w * t + (V - w * t)) by ring.
    eapply Rle_trans; [apply abs_add; [apply abs_mul; [rewrite Rabs_pos_eq by lra; apply Rle_refl|exact At]|exact EV]|]. lra. }
  rewrite (@lin1_weights a Ia Na X (val_at vr) i Ci), Loc, V0, V1. fold t.
  replace ((1 - t) * B2R y0 + t * B2R y1) with (B2R y0 + t * D) by (unfold D; ring).
  assert (Q : Rabs (B2R y0 + t' * D - (B2R y0 + t * D)) <= 42 / 10 * (E * G) * (2 * A)).
  { replace (B2R y0 + t' * D - (B2R y0 + t * D)) with ((t' - t) * D) by ring. apply abs_mul; auto. }
  replace (B2R y - (B2R y0 + t * D)) with ((B2R y - (B2R y0 + t' * D)) + (B2R y0 + t' * D - (B2R y0 + t * D))) by ring.
  eapply Rle_trans; [apply abs_add; [exact R|exact Q]|].
  assert (Z1 : u * (Rabs (B2R y0 + t' * D) + 6 * Rabs (t' * D)) <= 2 * E * (1514 / 100 * (G * A))).
  { apply Rmult_le_compat; try lra. assert (0 <= Rabs (B2R y0 + t' * D)) by apply Rabs_pos.
    assert (0 <= Rabs (t' * D)) by apply Rabs_pos. lra. }
  assert (Z2 : 2 * eta * (1 + Rabs V) <= 2 * eta * (101 / 100 * (G + w * G))) by (apply Rmult_le_compat_l; lra).
  lra.
Qed.

(** LinearHoldLast1D: the outermost value, up to the error of the computed end of the grid. *)
Theorem hold1_out A S : bounded_values prec emax A vals -> slopes_within S a vr -> S <= bpow radix2 (emax - 3) ->
  (1 + 2 * overshoot a X) * A <= bpow radix2 (emax - 4) ->
  exists z, hold_last1 o c (r1_at o c g) x = Ok z /\ fin z /\
    (X < coord a 0 -> z = nth 0 vals d) /\
    (coord a (npts a - 1) < X -> Rabs (B2R z - val_at vr (n - 1)) <= regular_line_error prec emax kappa A w).
Proof using All.
  intros Hv HS BS GA. assert (N := eta_pos prec emax). assert (U := u_pos prec).
  destruct out_hyps as (Fs & Fh & H2 & Hs & Ht & Hk). destruct out_T as (XT & OL & OH).
  destruct out_stop as (Fst & Est). destruct out_sample as (i & Ci & Ea & I0 & I1).
  destruct (kappa_half_any prec emax Hp He start h x n kappa Fs Fh Fx Ph H2 Hs Ht Hk HE Hx Hprec) as (K1 & K2).
  assert (E0 : 0 <= E) by (apply Rmult_le_pos; lra).
  assert (EW : E * w <= / 504 * w) by (apply Rmult_le_compat_r; lra).
  assert (D1 : 1 <= IZR (n - 1)) by (apply IZR_le; lia).
  assert (WD : w * 1 <= w * IZR (n - 1)) by (apply Rmult_le_compat_l; lra).
  assert (ZV : Z.of_nat (length vals) = n) by reflexivity.
  apply Rabs_le_inv in Est. cbn [coord npts] in *. change (IZR 0) with 0 in *.
  destruct (proj1 Hv) as (A0 & A1).
  unfold hold_last1. rewrite Ea. cbn [bind sextrap].
  destruct Out as [L|L].
  - assert (C1 : flt o stop x = false).
    { destruct (flt o stop x) eqn:C; auto. apply (ltb_fin Hp He) in C; auto. lra. }
    assert (C2 : flt o x start = true) by (apply (ltb_fin Hp He); auto; lra).
    rewrite C1, C2. cbn [sy0]. rewrite (I0 (OL L)). eexists. split; [reflexivity|].
    split; [apply (Forall_nth_lt d (proj2 Hv) (k := 0%nat) ltac:(lia))|]. split; [reflexivity|]. intros L'. lra.
  - assert (Ei := I1 (OH L)). assert (C2 : flt o x start = false).
    { destruct (flt o x start) eqn:C; auto. apply (ltb_fin Hp He) in C; auto. lra. }
    assert (Vn : val_at vr (n - 1) = B2R (nth (Z.to_nat (n - 1)) vals d)) by apply (nth_B2R prec emax Hp He).
    destruct (Forall_nth_lt d (proj2 Hv) (k := Z.to_nat (n - 1)) ltac:(lia)) as (Fn & Bn).
    assert (EA0 : 0 <= E * A) by (apply Rmult_le_pos; lra).
    assert (NW : 0 <= eta * w) by (apply Rmult_le_pos; lra).
    rewrite C2. destruct (flt o stop x) eqn:C1.
    + cbn [sy1]. replace (i + 1)%Z with (n - 1)%Z by lia. eexists. split; [reflexivity|]. split; [exact Fn|].
      split; [intros L'; lra|]. intros _. rewrite Vn, Rminus_diag_eq, Rabs_R0 by reflexivity.
      unfold regular_line_error, roundoff, underflow. lra.
    + assert (XS : X <= B2R stop).
      { destruct (Rle_lt_dec X (B2R stop)) as [Q|Q]; auto. exfalso. apply (ltb_fin Hp He) in Q; auto. change (flt o stop x = true) in Q. congruence. }
      destruct (linear1_out A S Hv HS BS GA Inside i Ci) as (F & R). eexists. split; [reflexivity|]. split; [exact F|].
      split; [intros L'; lra|]. intros _. cbv zeta in R.
      set (y := line_through o c _ x) in *.
      assert (Ia : increasing_axis a) by (apply reg_axis_inc; auto).
      assert (Na : (2 <= npts a)%Z) by (cbn [npts]; lia).
      assert (Loc : local_coord a X i = T - IZR i).
      { unfold local_coord, reg_pos. cbn [coord]. rewrite plus_IZR. field. lra. }
      assert (In1 : IZR i = IZR (n - 1) - 1) by (rewrite Ei, !minus_IZR; ring).
      assert (Tu : T - IZR (n - 1) <= 31 / 10 * E).
      { apply Rmult_le_reg_l with w; auto. lra. }
      assert (Tl := OH L).
      assert (Ov : overshoot a X <= 31 / 10 * E).
      { unfold overshoot, spacing. cbn [coord npts]. apply Rmax_lub; [lra|]. apply Rmax_lub.
        - replace ((B2R start + w * IZR 0 - X) / (B2R start + w * IZR (0 + 1) - (B2R start + w * IZR 0))) with (- T)
            by (unfold reg_pos; simpl; field; lra). lra.
        - replace (n - 2 + 1)%Z with (n - 1)%Z by lia. replace (IZR (n - 2)) with (IZR (n - 1) - 1) by (rewrite !minus_IZR; ring).
          replace ((X - (B2R start + w * IZR (n - 1))) / (B2R start + w * IZR (n - 1) - (B2R start + w * (IZR (n - 1) - 1)))) with (T - IZR (n - 1))
            by (unfold reg_pos; field; lra). exact Tu. }
      assert (O0 := overshoot_nonneg a X).
      set (G := 1 + 2 * overshoot a X) in *. assert (G1 : 1 <= G <= 102 / 100) by (unfold G; lra).
      assert (LE : Rabs (lin1 a X (val_at vr) - val_at vr (n - 1)) <= 62 / 10 * (E * A)).
      { rewrite (@lin1_weights a Ia Na X (val_at vr) i Ci), Loc. replace (i + 1)%Z with (n - 1)%Z by lia.
        assert (Bi : Rabs (val_at vr i) <= A).
        { unfold val_at. rewrite (nth_B2R prec emax Hp He). apply (Forall_nth_lt d (proj2 Hv)). lia. }
        rewrite <- Vn in Bn.
        replace ((1 - (T - IZR i)) * val_at vr i + (T - IZR i) * val_at vr (n - 1) - val_at vr (n - 1))
          with ((T - IZR i - 1) * (val_at vr (n - 1) - val_at vr i)) by ring.
        apply Rle_trans with (31 / 10 * E * (2 * A)); [|lra].
        apply abs_mul; [apply Rabs_le; lra|]. apply Rabs_le_inv in Bi. apply Rabs_le_inv in Bn. apply Rabs_le. lra. }
      replace (B2R y - val_at vr (n - 1)) with ((B2R y - lin1 a X (val_at vr)) + (lin1 a X (val_at vr) - val_at vr (n - 1))) by ring.
      eapply Rle_trans; [apply abs_add; [exact R|exact LE]|]. unfold regular_line_error, roundoff, underflow.
      assert (Z1 : 40 * E * (G * A) <= 40 * E * (102 / 100 * A)).
      { apply Rmult_le_compat_l; [lra|]. apply Rmult_le_compat_r; lra. }
      assert (Z2 : 202 / 100 * eta * (1 + w) * G <= 202 / 100 * eta * (1 + w) * (102 / 100)).
      { apply Rmult_le_compat_l; [|lra]. apply Rmult_le_pos; lra. }
      lra.
Qed.
End B.

Theorem C68_proof_regular_outside prec emax (Hp : Prec_gt_0 prec) (He : Prec_lt_emax prec emax) :
  let o := BOps Hp He in
  forall c (start h x : binary_float prec emax) vals g kappa A S,
  let a := mkAxis (zlen vals) (fun i => B2R start + B2R h * IZR i) in
  (2 <= zlen vals <= isize_max)%Z -> 0 < B2R h -> axis_within prec emax kappa start h (zlen vals) -> is_finite x = true ->
  Rabs (B2R x) <= kappa * B2R h -> B2R x < coord a 0 \/ coord a (npts a - 1) < B2R x -> r1_new o c start h vals = Ok g ->
  bounded_values prec emax A vals -> slopes_within S a (map B2R vals) -> S <= bpow radix2 (emax - 3) ->
  (1 + 2 * overshoot a (B2R x)) * A <= bpow radix2 (emax - 4) ->
  504 * (roundoff prec * kappa) <= 1 -> (prec <= 64)%Z ->
  forall c' (dom : R -> Prop) at_, grid1 c' (map B2R vals) a dom at_ -> dom (B2R x) ->
  exists y z r v, linear1 o c (r1_at o c g) x = Ok y /\ hold_last1 o c (r1_at o c g) x = Ok z /\
    is_finite y = true /\ is_finite z = true /\
    linear1 ROps c' at_ (B2R x) = Ok r /\ hold_last1 ROps c' at_ (B2R x) = Ok v /\
    Rabs (B2R y - r) <= (1 + 2 * overshoot a (B2R x)) * regular_line_error prec emax kappa A (B2R h) /\
    Rabs (B2R z - v) <= regular_line_error prec emax kappa A (B2R h) /\
    (B2R x < coord a 0 -> nth_error vals 0 = Some z).
Proof.
  intros o c start h x vals g kappa A S a Hn Ph Ha Fx Hx Out Hg Hv HS BS GA HE Hprec c' dom at_ H1 Dx.
  destruct (out_sample prec emax Hp He c start h x vals g kappa Hn Ph Ha Fx HE Hprec Hx Hg Out) as (i & Ci & Ea & _).
  destruct (linear1_out prec emax Hp He c start h x vals g kappa Hn Ph Ha Fx HE Hprec Hx Hg Out A S Hv HS BS GA
    (if flt o (fadd o start (fmul o h (uf o (zlen vals - 1)))) x then ExtrapHigh else if flt o x start then ExtrapLow else Inside) i Ci) as (Fy & Ry).
  destruct (hold1_out prec emax Hp He c start h x vals g kappa Hn Ph Ha Fx HE Hprec Hx Hg Out A S Hv HS BS GA) as (z & Ez & Fz & ZL & ZH).
  destruct (C30_proof_outside (B2R x) H1 Dx) as (XL & XH).
  assert (ZV : Z.of_nat (length vals) = zlen vals) by reflexivity.
  assert (N0 : nth_error vals 0 = Some (nth 0 vals (fzero o))) by (apply nth_error_nth'; lia).
  assert (N := eta_pos prec emax). assert (U := u_pos prec). destruct (proj1 Hv) as (A0 & A1).
  assert (E0 : 0 <= regular_line_error prec emax kappa A (B2R h) /\
    40 * (bpow radix2 (- prec) * kappa) * A + 202 / 100 * (/ 2 * bpow radix2 (3 - emax - prec)) * (1 + B2R h)
      <= regular_line_error prec emax kappa A (B2R h)).
  { destruct Ha as (F1 & F2 & K1 & K2 & K3).
    assert (K0 : 0 <= kappa).
    { apply Rmult_le_reg_r with (B2R h); auto. rewrite Rmult_0_l. eapply Rle_trans; [apply Rabs_pos|exact K1]. }
    assert (0 <= bpow radix2 (- prec) * kappa * A) by (apply Rmult_le_pos; [apply Rmult_le_pos; lra|lra]).
    assert (0 <= / 2 * bpow radix2 (3 - emax - prec) * B2R h) by (apply Rmult_le_pos; lra).
    unfold regular_line_error, roundoff, underflow. split; lra. }
  assert (G1 : 1 <= 1 + 2 * overshoot a (B2R x)) by (assert (Z := overshoot_nonneg a (B2R x)); lra).
  assert (Lin : linear1 o c (r1_at o c g) x = Ok (line_through o c (mkSample (fadd o start (fmul o h (uf o i))) (nth (Z.to_nat i) vals (fzero o))
    (fadd o (fadd o start (fmul o h (uf o i))) h) (nth (Z.to_nat (i + 1)) vals (fzero o))
    (if flt o (fadd o start (fmul o h (uf o (zlen vals - 1)))) x then ExtrapHigh else if flt o x start then ExtrapLow else Inside)) x)).
  { unfold linear1. unfold o in *. rewrite Ea. reflexivity. }
  eexists. exists z. exists (lin1 a (B2R x) (val_at (map B2R vals))).
  exists (if Rlt_dec (B2R x) (coord a 0) then val_at (map B2R vals) 0 else val_at (map B2R vals) (zlen (map B2R vals) - 1)).
  split; [exact Lin|]. split; [exact Ez|]. split; [exact Fy|]. split; [exact Fz|].
  split; [exact (grid1_linear _ _ _ _ _ _ H1 Dx)|].
  split; [destruct (Rlt_dec (B2R x) (coord a 0)) as [L|L]; [exact (XL L)|destruct Out as [L'|L']; [contradiction|exact (XH L')]]|].
  split.
  { eapply Rle_trans; [exact Ry|]. fold a. set (G := 1 + 2 * overshoot a (B2R x)) in *.
    eapply Rle_trans; [|apply Rmult_le_compat_l; [lra|exact (proj2 E0)]]. lra. }
  split; [|intros L; rewrite N0, (ZL L); reflexivity].
  destruct (Rlt_dec (B2R x) (coord a 0)) as [L|L].
  - assert (Q : val_at (map B2R vals) 0 = B2R (nth 0 vals (fzero o))) by apply (nth_B2R prec emax Hp He vals 0).
    rewrite (ZL L), Q. fold o. rewrite Rminus_diag_eq, Rabs_R0 by reflexivity. exact (proj1 E0).
  - destruct Out as [L'|L']; [contradiction|]. replace (zlen (map B2R vals)) with (zlen vals) by (unfold zlen; rewrite map_length; reflexivity).
    exact (ZH L').
Qed.
