(** The floating-point multicubic interpolators and the Python function on dyadic data, at points inside and outside the grid. *)
From Coq Require Import Reals Lra Lia List Bool ZifyBool ZifyNat PeanoNat String.
From Flocq Require Import Core.Core IEEE754.BinarySingleNaN.
From Verif Require Import Base Ops RInst FInst ModelCore ModelLinear ModelCubic ModelPython Spec SpecOrder SpecReal SpecIEEE Interpolators SpecApprox SpecCubicError SpecPython SpecDetect SpecExact SpecCubicExact SpecExtrap SpecExactOut.
From Verif Require Import CoreLemmas TensorLemmas MethodLemmas SearchLemmas MethodChar GenLemmas GenProofs GenProofs2 GenProofs3 OrderLemmas OrderProofs R1D RTensor RChar REval RProofs FLemmas UtilProofs FProofs FProofs2 FError FError2 FApprox Approx1D Approx FCubic FCubicReg FCubicRect PyProofs FDetect FPython FPyCubic FExact FCubicExact FCubicExact2 FExactOut FCubicExactOut.
Import ListNotations.
Unset Implicit Arguments.
Open Scope string_scope.
Open Scope list_scope.
Open Scope R_scope.

Section B.
Variables prec emax : Z.
Context (Hp : Prec_gt_0 prec) (He : Prec_lt_emax prec emax).
Notation fl := (binary_float prec emax).
Notation o := (BOps Hp He).
Notation emin := (3 - emax - prec)%Z.
Notation fin x := (is_finite x = true).

Notation entry_dyadic := (entry_dyadic prec emax Hp He).

(** ** Regular grids *)
Section Reg.
Variables (c : cfg) (lin : bool) (dims : list Z) (starts steps vals x : list fl) (eval : list fl -> outcome fl) (a b g m : Z).
Notation axes := (reg_axes dims (map B2R starts) (map B2R steps)).
Hypothesis H : float_cubic_regular Hp He c lin dims starts steps vals eval.
Hypothesis Lx : length x = length dims.
Hypothesis P2 : (2 <= prec <= 62)%Z.
Hypothesis Hb : (0 <= b)%Z.
Hypothesis Hm : (0 <= m)%Z.
Hypothesis HA : forall k start h d xk, nth_error starts k = Some start -> nth_error steps k = Some h -> nth_error dims k = Some d ->
     nth_error x k = Some xk -> dyadic_axis_any prec emax b m start h xk d.
Hypothesis HV : dyadic_values prec emax a g vals.
Hypothesis Hfit : (a + Z.of_nat (length dims) * (3 * b + 3 * m + 6) <= prec)%Z.
Hypothesis Hlow : (emin <= g - Z.of_nat (length dims) * (3 * b + 1))%Z.
Hypothesis Hhigh : (g + a + Z.of_nat (length dims) * (3 * m + 5) < emax)%Z.

Lemma cubic_exact_core_any : Forall (good_axis 4) axes /\ length (map (@B2R prec emax) x) = length axes /\ exists y, eval x = Ok y /\ fin y /\
  B2R y = tenL (ops1 (cub1 lin) axes (map B2R x)) (entry 0 (map npts axes) (map B2R vals)).
Proof using All.
  destruct (float_cubic_regular_inv _ _ _ _ _ _ _ _ _ _ _ H) as (W & P & fma & E). rewrite E by auto.
  assert (W' := W). destruct W' as (W0 & W1 & W2 & W3 & W4). cbn [r_dims r_starts r_steps r_vals] in *.
  assert (L1 : length (map (@B2R prec emax) starts) = length dims) by (rewrite map_length; auto).
  assert (L2 : length (map (@B2R prec emax) steps) = length dims) by (rewrite map_length; auto).
  assert (La := reg_axes_length _ _ _ L1 L2). assert (Dm := reg_axes_npts _ _ _ L1 L2).
  set (st := fun k => nth k starts (fzero o)). set (sp := fun k => nth k steps (fzero o)).
  set (xx := fun k => nth k x (fzero o)). set (dd := fun k => nth k dims 0%Z).
  assert (AX : forall k, (k < length dims)%nat -> (4 <= dd k)%Z /\ dyadic_axis_any prec emax b m (st k) (sp k) (xx k) (dd k)).
  { intros k Hk. split; [apply (Forall_nth_lt 0%Z W3 Hk)|]. apply (HA k); apply nth_error_nth_some; lia. }
  assert (SP : Forall (fun h => 0 < B2R h) steps).
  { apply Forall_forall. intros h Hh. apply (In_nth _ _ (fzero o)) in Hh as (k & Hk & <-). destruct (AX k ltac:(lia)) as (_ & _ & _ & _ & e & Ve & _).
    fold (sp k). rewrite Ve. apply bpow_gt_0. }
  assert (Good : Forall (good_axis 4) axes) by (apply reg_axes_good; auto; rewrite Forall_map; exact SP).
  split; [exact Good|].
  assert (NA : forall k, (k < length dims)%nat -> nth k axes ax0 = mkAxis (dd k) (fun i => B2R (st k) + B2R (sp k) * IZR i)).
  { intros k Hk. rewrite reg_axes_nth by auto. rewrite !(nth_B2R prec emax Hp He). reflexivity. }
  split; [rewrite map_length; lia|].
  assert (CE : forall k, (k < length dims)%nat -> exists p, creg_cell o c (st k) (sp k) (dd k) (xx k) = Ok p /\
    forall fo lin vs B G, (emin <= G - 1 - 3 * b)%Z -> (B + (3 * m + 5) - (G - 1 - 3 * b) <= prec)%Z -> (B + (3 * m + 5) < emax)%Z ->
    (forall i, fin (vs i) /\ whole (bpow radix2 G) (B2R (vs i)) /\ Rabs (B2R (vs i)) <= bpow radix2 B) ->
    let r := reg_innerp o c fo lin (snd p) (creg_dtp o (st k) (sp k) (xx k) (fst p)) [vs (fst p); vs (fst p + 1)%Z; vs (fst p + 2)%Z; vs (fst p + 3)%Z] in
    (fin r /\ B2R r = cub1 lin (nth k axes ax0) (B2R (xx k)) (fun i => B2R (vs i))) /\ whole (bpow radix2 (G - 1 - 3 * b)) (B2R r) /\ Rabs (B2R r) <= bpow radix2 (3 * m + 5 + B)).
  { intros k Hk. destruct (AX k Hk) as (D & A). destruct (cubic_axis_exact_any prec emax Hp He b m (st k) (sp k) (xx k) (dd k) P2 Hb Hm D A c) as (i & sat & Ei & Er).
    exists (i, sat). split; [exact Ei|]. rewrite NA by auto. exact Er. }
  destruct (mapM_total _ _ (fun k => creg_cell o c (st k) (sp k) (dd k) (xx k)) (seq 0 (length dims))) as (os & Eos).
  { intros k Hk. apply in_seq in Hk. destruct (CE k ltac:(lia)) as (i & -> & _). eauto. }
  assert (Eos' : creg_cells o c (mkRegular dims starts steps vals) x = Ok os) by exact Eos.
  rewrite Eos'. cbn [bind]. eexists. split; [reflexivity|].
  assert (Lm : length (map B2R x) = length axes) by (rewrite map_length; lia).
  assert (LF := good_cub lin _ Lm Good). rewrite Dm in *.
  assert (Hnd : forall k, (k < length dims)%nat -> nth k (ops1 (cub1 lin) axes (map B2R x)) (fun _ => 0) = cub1 lin (nth k axes ax0) (B2R (xx k))).
  { intros k Hk. rewrite ops1_nth by (rewrite ?map_length; lia). rewrite (nth_B2R prec emax Hp He). reflexivity. }
  destruct (tens4_exact_any prec emax Hp He dims (map fst os) (entry (fzero o) dims vals) (ops1 (cub1 lin) axes (map B2R x))
     (mcr_nd o c fma lin (mkRegular dims starts steps vals) x os) a b g m Hb Hm LF) with (k := length dims) (suf := @nil Z) as ((F & V) & _); auto.
  - intros idx. apply entry_dyadic; auto.
  - intros k vs B G Hk H1 H2 H3 Hvs. cbv zeta. rewrite Hnd by auto. unfold mcr_nd. cbn [r_starts r_steps].
    assert (Ek := @mapM_snoc_nth _ az _ _ _ Eos k Hk). cbv beta in Ek.
    destruct (CE k Hk) as (p & Ep & Er). rewrite Ep in Ek. injection Ek as Ek. rewrite nth_map_fst, <- Ek.
    exact (Er fma lin vs B G H1 H2 H3 Hvs).
  - split; [exact F|].
    assert (LO : length (ops1 (cub1 lin) axes (map B2R x)) = length dims) by (rewrite ops1_length by auto; lia).
    replace (firstn (length dims) (ops1 (cub1 lin) axes (map B2R x))) with (ops1 (cub1 lin) axes (map B2R x)) in V by (rewrite <- LO, firstn_all; reflexivity).
    eapply eq_trans; [exact V|]. apply (tenL_ext _ _ LF). intros idx _. rewrite app_nil_r. symmetry. apply entry_real.
Qed.
Theorem cubic_exact_regular_any c' dom eval' : multicubic c' lin (map B2R vals) axes dom eval' -> dom (map B2R x) ->
  exists y, eval x = Ok y /\ fin y /\ eval' (map B2R x) = Ok (B2R y).
Proof using All.
  intros M D. destruct cubic_exact_core_any as (G & I & y & E & F & R). destruct (multicubic_value M) as (_ & _ & E').
  exists y. split; [exact E|]. split; [exact F|]. rewrite R. apply E'; [exact I|exact D].
Qed.
End Reg.

(** ** Rectilinear grids *)
Section Rect.
Variables (c : cfg) (lin : bool) (grids : list (list fl)) (vals x : list fl) (eval : list fl -> outcome fl) (a b g m : Z).
Notation axes := (rect_axes (map (map B2R) grids)).
Hypothesis H : float_cubic_rectilinear Hp He c lin grids vals eval.
Hypothesis I : Forall (increasing_grid o) grids.
Hypothesis S : Forall (Forall (@moderate prec emax)) grids.
Hypothesis Sx : Forall (@moderate prec emax) x.
Hypothesis Ov : Forall2 (fun gr xk => at_most_outside m (list_axis (map B2R gr)) (B2R xk)) grids x.
Hypothesis P2 : (2 <= prec)%Z.
Hypothesis Ha : (0 <= a)%Z.
Hypothesis Hb : (0 <= b)%Z.
Hypothesis Hm : (0 <= m)%Z.
Hypothesis HD : Forall2 (even_dyadic_grid prec emax b) grids x.
Hypothesis HV : dyadic_values prec emax a g vals.
Hypothesis Hfit : (a + Z.of_nat (length grids) * (3 * b + 3 * m + 6) <= prec)%Z.
Hypothesis Hlow : (emin <= g - Z.of_nat (length grids) * (3 * b + 1))%Z.
Hypothesis Hhigh : (g + a + Z.of_nat (length grids) * (3 * m + 5) < emax)%Z.

Lemma cubic_exact_core_rect_any : length (map (@B2R prec emax) x) = length axes /\ exists y, eval x = Ok y /\ fin y /\
  B2R y = tenL (ops1 (cub1 lin) axes (map B2R x)) (entry 0 (map npts axes) (map B2R vals)).
Proof using All.
  destruct (float_cubic_rectilinear_inv _ _ _ _ _ _ _ _ _ H) as (W & fma & E).
  assert (W' := W). destruct W' as (W0 & _ & W2 & W3). cbn [g_grids g_dims g_vals] in *.
  assert (La : length (rect_axes (map (map (@B2R prec emax)) grids)) = length grids) by (unfold rect_axes; rewrite !map_length; auto).
  assert (Lx : length x = length grids) by (symmetry; eapply Forall2_len; exact Ov). rewrite E by auto.
  split; [rewrite map_length; lia|].
  assert (Good : Forall (good_axis 4) (rect_axes (map (map (@B2R prec emax)) grids))).
  { apply rect_axes_good; unfold grids_ok; rewrite Forall_map.
    - rewrite Forall_forall in *. intros g' Hg. apply (increasing_B2R prec emax Hp He); auto.
      eapply Forall_impl; [|exact (S g' Hg)]. intros v (Fv & _). exact Fv.
    - eapply Forall_impl; [|exact W2]. intros g' Hg. rewrite zlen_map. exact Hg. }
  eexists. split; [reflexivity|].
  assert (Bb : (b + m <= prec)%Z).
  { assert (1 * (b + m) <= Z.of_nat (length grids) * (3 * b + 3 * m + 6))%Z by (apply Z.mul_le_mono_nonneg; lia). lia. }
  assert (Dm : map npts (rect_axes (map (map (@B2R prec emax)) grids)) = map zlen grids).
  { rewrite rect_axes_npts, map_map. apply map_ext. intros g'. apply zlen_map. }
  assert (Lm : length (map B2R x) = length (rect_axes (map (map (@B2R prec emax)) grids))) by (rewrite map_length; lia).
  assert (LF := good_cub lin _ Lm Good). rewrite Dm in *.
  assert (LD : length (map zlen grids) = length grids) by apply map_length.
  assert (NA : forall k, (k < length grids)%nat -> nth k axes ax0 = list_axis (map B2R (nth k grids []))).
  { intros k Hk. rewrite rect_axes_nth by (rewrite map_length; auto).
    rewrite (nth_indep (map (map (@B2R prec emax)) grids) [] (map (@B2R prec emax) [])) by (rewrite map_length; auto). rewrite (map_nth (map (@B2R prec emax))). reflexivity. }
  set (xx := fun k => nth k x (fzero o)). set (gg := fun k => nth k grids []).
  assert (AX : forall k, (k < length grids)%nat -> increasing_grid o (gg k) /\ (4 <= zlen (gg k))%Z /\ Forall (@moderate prec emax) (gg k) /\ moderate (xx k) /\
     at_most_outside m (list_axis (map B2R (gg k))) (B2R (xx k)) /\
     even_dyadic_grid prec emax b (gg k) (xx k)).
  { intros k Hk. split; [apply (Forall_nth_lt [] I Hk)|]. split; [apply (Forall_nth_lt [] W2 Hk)|]. split; [apply (Forall_nth_lt [] S Hk)|].
    split; [apply (Forall_nth_lt (fzero o) Sx); lia|]. split; [exact (Forall2_nth_lt _ _ _ _ _ k [] (fzero o) Ov Hk)|].
    exact (Forall2_nth_lt _ _ _ _ _ k [] (fzero o) HD Hk). }
  assert (Hnd : forall k, (k < length grids)%nat -> nth k (ops1 (cub1 lin) axes (map B2R x)) (fun _ => 0) = cub1 lin (list_axis (map B2R (gg k))) (B2R (xx k))).
  { intros k Hk. rewrite ops1_nth by (rewrite ?map_length; lia). rewrite NA by auto. rewrite (nth_B2R prec emax Hp He). reflexivity. }
  set (os := map fst (crect_cells o (mkRect grids (map zlen grids) vals) x)).
  destruct (tens4_exact_any prec emax Hp He (map zlen grids) os (entry (fzero o) (map zlen grids) vals) (ops1 (cub1 lin) axes (map B2R x))
     (mcc_nd o c fma lin (mkRect grids (map zlen grids) vals) x) a b g m Hb Hm LF) with (k := length (map (@zlen fl) grids)) (suf := @nil Z) as ((F & V) & _); auto; rewrite ?LD; auto.
  - intros idx. apply entry_dyadic; auto.
  - intros k vs B G Hk H1 H2 H3 Hvs. cbv zeta. rewrite Hnd by auto. unfold mcc_nd. cbn [g_grids]. cbv zeta.
    destruct (AX k Hk) as (X1 & X2 & X3 & X4 & X5 & X6).
    replace (nth k os 0%Z) with (fst (crect_cell o (gg k) (xx k))).
    + exact (crect_axis_exact_any prec emax Hp He b m (gg k) (xx k) P2 Hb Hm Bb X1 X2 X3 X4 X5 X6 c fma lin vs B G H1 H2 H3 Hvs).
    + unfold os. rewrite nth_map_fst, crect_cells_nth by (cbn [g_grids]; lia). reflexivity.
  - rewrite LD in F, V. split; [exact F|].
    assert (LO : length (ops1 (cub1 lin) axes (map B2R x)) = length grids) by (rewrite ops1_length by auto; lia).
    replace (firstn (length grids) (ops1 (cub1 lin) axes (map B2R x))) with (ops1 (cub1 lin) axes (map B2R x)) in V by (rewrite <- LO, firstn_all; reflexivity).
    eapply eq_trans; [exact V|]. apply (tenL_ext _ _ LF). intros idx _. rewrite app_nil_r. symmetry. apply entry_real.
Qed.
Theorem cubic_exact_rectilinear_any c' dom eval' : multicubic c' lin (map B2R vals) axes dom eval' -> dom (map B2R x) ->
  exists y, eval x = Ok y /\ fin y /\ eval' (map B2R x) = Ok (B2R y).
Proof using All.
  intros M D. destruct cubic_exact_core_rect_any as (L & y & E & F & R). destruct (multicubic_value M) as (_ & _ & E').
  exists y. split; [exact E|]. split; [exact F|]. rewrite R. apply E'; [exact L|exact D].
Qed.
End Rect.

(** ** The Python function *)
Section Python.
Variables (c : cfg) (obs grids : list (ndarray fl)) (vals o0 : ndarray fl) (lin assume : bool) (atol : fl) (a b g m : Z).
Notation gs := (map nd_data grids).
Notation pt j := (point_of (fzero o) (map nd_data obs) j).
Notation n := (length (nd_data o0)).
Hypothesis Hc : good_call 4 o0 obs grids vals.
Hypothesis Hn : (1 <= length grids <= 8)%nat.
Hypothesis Hb : (0 <= b)%Z.
Hypothesis Hm : (0 <= m)%Z.
Hypothesis HV : dyadic_values prec emax a g (nd_data vals).
Hypothesis Hfit : (a + Z.of_nat (length grids) * (3 * b + 3 * m + 6) <= prec)%Z.
Hypothesis Hlow : (emin <= g - Z.of_nat (length grids) * (3 * b + 1))%Z.
Hypothesis Hhigh : (g + a + Z.of_nat (length grids) * (3 * m + 5) < emax)%Z.

Theorem cubic_exact_python_any c' dom eval' : (2 <= prec <= 62)%Z -> assume = true \/ Forall (evenly_spaced o) gs ->
  (forall j, (j < n)%nat -> Forall2 (fun gr xk => dyadic_axis_any prec emax b m (nth 0 gr (fzero o)) (first_step prec emax Hp He gr) xk (zlen gr)) gs (pt j)) ->
  (0 < n)%nat ->
  multicubic c' lin (map B2R (nd_data vals)) (reg_axes (map zlen gs) (map B2R (firsts (fzero o) gs)) (map B2R (spacings o (fzero o) gs))) dom eval' -> (forall j, (j < n)%nat -> dom (map B2R (pt j))) ->
  exists r, fst (py_interpn o c obs grids vals "cubic" None lin assume false atol) = Ret r /\
  nd_shape r = nd_shape o0 /\ length (nd_data r) = n /\
  forall j, (j < n)%nat -> is_finite (nth j (nd_data r) (fzero o)) = true /\
    eval' (map B2R (pt j)) = Ok (B2R (nth j (nd_data r) (fzero o))).
Proof using All.
  intros P2 Hev HA N0 HM HD.
  assert (SP : Forall (fun h => flt o (fzero o) h = true) (spacings o (fzero o) gs)).
  { unfold spacings. rewrite Forall_map. specialize (HA 0%nat N0). apply Forall_forall. intros gr Hg.
    apply (In_nth _ _ []) in Hg as (k & Hk & <-).
    assert (L : (k < length (pt 0))%nat) by (rewrite <- (Forall2_len _ _ _ _ _ HA); exact Hk).
    assert (Q := Forall2_nth_lt _ _ _ _ _ k [] (fzero o) HA Hk). destruct Q as (_ & Fh & _ & e & Ve & _).
    apply ltb_fin; auto. unfold first_step in Ve. rewrite Ve. apply bpow_gt_0. }
  assert (RI := call_reg o c obs grids vals o0 (good4_2 obs grids vals o0 Hc) Hn).
  destruct (call_even3 o c obs grids vals o0 lin assume atol Hc Hn SP Hev) as (eval & Hs & Hr).
  assert (Hfl : float_cubic_regular Hp He c lin (map zlen gs) (firsts (fzero o) gs) (spacings o (fzero o) gs) (nd_data vals) eval).
  { destruct Hs as [(s & Es & ->)|(k & s & Es & ->)]; [apply float_cubic_regular_flat|apply float_cubic_regular_recursive]; auto. }
  assert (HT : forall j, (j < n)%nat -> exists y, eval (pt j) = Ok y /\ fin y /\ eval' (map B2R (pt j)) = Ok (B2R y)).
  { intros j Hj. specialize (HA j Hj). eapply (cubic_exact_regular_any c lin _ _ _ (nd_data vals) (pt j) eval a b g m Hfl); eauto; rewrite ?map_length; auto.
    - rewrite <- (Forall2_len _ _ _ _ _ HA). rewrite map_length. reflexivity.
    - intros k start h d xk E1 E2 E3 E4. unfold firsts, spacings in E1, E2. rewrite nth_error_map in E1, E2, E3.
      destruct (nth_error gs k) as [gr|] eqn:Eg; cbn [option_map] in *; [|discriminate E1].
      injection E1 as <-. injection E2 as <-. injection E3 as <-.
      clear - HA Eg E4. revert k Eg E4. induction HA as [|g' x' l l' Q' R' IH]; intros [|k] Eg E4; cbn [nth_error] in *; try discriminate Eg.
      + injection Eg as <-. injection E4 as <-. exact Q'.
      + eapply IH; eauto. }
  destruct Hr as (r & R1 & R2 & R3 & R4).
  - intros j Hj. destruct (HT j Hj) as (y & Ey & _). eauto.
  - exists r. split; [exact R1|]. split; [exact R2|]. split; [exact R3|]. intros j Hj. destruct (HT j Hj) as (y & Ey & Fy).
    rewrite (R4 j Hj) in Ey. rewrite (ok_same _ _ Ey). exact Fy.
Qed.
End Python.
End B.
