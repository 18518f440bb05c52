(** The floating-point multicubic interpolators and the Python function on dyadic data. *)
From Coq Require Import Reals Lra Lia List Bool ZifyBool ZifyNat PeanoNat String.
From Flocq Require Import Core.Core IEEE754.BinarySingleNaN.
From Verif Require Import Base Ops RInst FInst ModelCore ModelLinear ModelCubic ModelPython Spec SpecOrder SpecReal SpecIEEE Interpolators SpecApprox SpecCubicError SpecPython SpecDetect SpecExact SpecCubicExact.
From Verif Require Import CoreLemmas TensorLemmas MethodLemmas SearchLemmas MethodChar GenLemmas GenProofs GenProofs2 GenProofs3 OrderLemmas OrderProofs R1D RTensor RChar REval RProofs FLemmas UtilProofs FProofs FProofs2 FError FError2 FApprox Approx1D Approx FCubic FCubicReg FCubicRect PyProofs FDetect FPython FPyCubic FExact FCubicExact.
Import ListNotations.
Unset Implicit Arguments.
Open Scope string_scope.
Open Scope list_scope.
Open Scope R_scope.

Section B.
Variables prec emax : Z.
Context (Hp : Prec_gt_0 prec) (He : Prec_lt_emax prec emax).
Notation fl := (binary_float prec emax).
Notation o := (BOps Hp He).
Notation emin := (3 - emax - prec)%Z.
Notation fin x := (is_finite x = true).

Lemma entry_dyadic a g dims vals idx : dyadic_values prec emax a g vals ->
  fin (entry (fzero o) dims vals idx) /\ whole (bpow radix2 g) (B2R (entry (fzero o) dims vals idx)) /\ Rabs (B2R (entry (fzero o) dims vals idx)) <= bpow radix2 (g + a).
Proof using.
  intros HV. unfold entry. destruct (nth_in_or_default (Z.to_nat (cindex dims idx)) vals (fzero o)) as [I|Q].
  - unfold dyadic_values in HV. rewrite Forall_forall in HV. apply HV; auto.
  - rewrite Q. split; [reflexivity|]. split; [apply whole_0|]. simpl. rewrite Rabs_R0. apply bpow_ge_0.
Qed.

(** ** Regular grids *)
Section Reg.
Variables (c : cfg) (lin : bool) (dims : list Z) (starts steps vals x : list fl) (eval : list fl -> outcome fl) (a b g : Z).
Notation axes := (reg_axes dims (map B2R starts) (map B2R steps)).
Hypothesis H : float_cubic_regular Hp He c lin dims starts steps vals eval.
Hypothesis Lx : length x = length dims.
Hypothesis P2 : (2 <= prec <= 62)%Z.
Hypothesis Hb : (0 <= b)%Z.
Hypothesis HA : forall k start h d xk, nth_error starts k = Some start -> nth_error steps k = Some h -> nth_error dims k = Some d ->
     nth_error x k = Some xk -> dyadic_axis prec emax b start h xk d.
Hypothesis HV : dyadic_values prec emax a g vals.
Hypothesis Hfit : (a + 3 + Z.of_nat (length dims) * (3 * b + 2) <= prec)%Z.
Hypothesis Hlow : (emin <= g - Z.of_nat (length dims) * (3 * b + 1))%Z.
Hypothesis Hhigh : (g + a + Z.of_nat (length dims) + 3 < emax)%Z.

Lemma cubic_exact_core : Forall (good_axis 4) axes /\ SpecReal.inside_grid axes (map B2R x) /\ exists y, eval x = Ok y /\ fin y /\
  B2R y = tenL (ops1 (cub1 lin) axes (map B2R x)) (entry 0 (map npts axes) (map B2R vals)).
Proof using All.
  destruct (float_cubic_regular_inv _ _ _ _ _ _ _ _ _ _ _ H) as (W & P & fma & E). rewrite E by auto.
  assert (W' := W). destruct W' as (W0 & W1 & W2 & W3 & W4). cbn [r_dims r_starts r_steps r_vals] in *.
  assert (L1 : length (map (@B2R prec emax) starts) = length dims) by (rewrite map_length; auto).
  assert (L2 : length (map (@B2R prec emax) steps) = length dims) by (rewrite map_length; auto).
  assert (La := reg_axes_length _ _ _ L1 L2). assert (Dm := reg_axes_npts _ _ _ L1 L2).
  set (st := fun k => nth k starts (fzero o)). set (sp := fun k => nth k steps (fzero o)).
  set (xx := fun k => nth k x (fzero o)). set (dd := fun k => nth k dims 0%Z).
  assert (AX : forall k, (k < length dims)%nat -> (4 <= dd k)%Z /\ dyadic_axis prec emax b (st k) (sp k) (xx k) (dd k)).
  { intros k Hk. split; [apply (Forall_nth_lt 0%Z W3 Hk)|]. apply (HA k); apply nth_error_nth_some; lia. }
  assert (SP : Forall (fun h => 0 < B2R h) steps).
  { apply Forall_forall. intros h Hh. apply (In_nth _ _ (fzero o)) in Hh as (k & Hk & <-). destruct (AX k ltac:(lia)) as (_ & _ & _ & _ & e & Ve & _).
    fold (sp k). rewrite Ve. apply bpow_gt_0. }
  assert (Good : Forall (good_axis 4) axes) by (apply reg_axes_good; auto; rewrite Forall_map; exact SP).
  split; [exact Good|].
  assert (NA : forall k, (k < length dims)%nat -> nth k axes ax0 = mkAxis (dd k) (fun i => B2R (st k) + B2R (sp k) * IZR i)).
  { intros k Hk. rewrite reg_axes_nth by auto. rewrite !(nth_B2R prec emax Hp He). reflexivity. }
  assert (XR : forall k, (k < length dims)%nat -> B2R (st k) <= B2R (xx k) <= B2R (st k) + B2R (sp k) * IZR (dd k - 1)).
  { intros k Hk. destruct (AX k Hk) as (_ & _ & _ & _ & e & Q). cbv zeta in Q. destruct Q as (_ & _ & _ & _ & _ & Q & _). exact Q. }
  split.
  { split; [rewrite map_length; lia|]. intros k ak Ek. assert (Hk : (k < length dims)%nat) by (rewrite <- La; apply nth_error_Some; congruence).
    apply nth_error_nth with (d := ax0) in Ek. rewrite <- Ek, NA by auto. rewrite (nth_B2R prec emax Hp He). cbn [coord npts]. fold (xx k).
    assert (Q := XR k Hk). change (IZR 0) with 0. lra. }
  assert (CE : forall k, (k < length dims)%nat -> exists p, creg_cell o c (st k) (sp k) (dd k) (xx k) = Ok p /\
    forall fo lin vs B G, (emin <= G - 1 - 3 * b)%Z -> (B + 4 - (G - 1 - 3 * b) <= prec)%Z -> (B + 4 < emax)%Z ->
    (forall i, fin (vs i) /\ whole (bpow radix2 G) (B2R (vs i)) /\ Rabs (B2R (vs i)) <= bpow radix2 B) ->
    let r := reg_innerp o c fo lin (snd p) (creg_dtp o (st k) (sp k) (xx k) (fst p)) [vs (fst p); vs (fst p + 1)%Z; vs (fst p + 2)%Z; vs (fst p + 3)%Z] in
    (fin r /\ B2R r = cub1 lin (nth k axes ax0) (B2R (xx k)) (fun i => B2R (vs i))) /\ whole (bpow radix2 (G - 1 - 3 * b)) (B2R r)).
  { intros k Hk. destruct (AX k Hk) as (D & A). destruct (cubic_axis_exact prec emax Hp He b (st k) (sp k) (xx k) (dd k) P2 Hb D A c) as (i & sat & Ei & Er).
    exists (i, sat). split; [exact Ei|]. rewrite NA by auto. exact Er. }
  destruct (mapM_total _ _ (fun k => creg_cell o c (st k) (sp k) (dd k) (xx k)) (seq 0 (length dims))) as (os & Eos).
  { intros k Hk. apply in_seq in Hk. destruct (CE k ltac:(lia)) as (i & -> & _). eauto. }
  assert (Eos' : creg_cells o c (mkRegular dims starts steps vals) x = Ok os) by exact Eos.
  rewrite Eos'. cbn [bind]. eexists. split; [reflexivity|].
  assert (Lm : length (map B2R x) = length axes) by (rewrite map_length; lia).
  assert (LF := good_cub lin _ Lm Good). rewrite Dm in *.
  assert (Hnd : forall k, (k < length dims)%nat -> nth k (ops1 (cub1 lin) axes (map B2R x)) (fun _ => 0) = cub1 lin (nth k axes ax0) (B2R (xx k))).
  { intros k Hk. rewrite ops1_nth by (rewrite ?map_length; lia). rewrite (nth_B2R prec emax Hp He). reflexivity. }
  destruct (tens4_exact prec emax Hp He dims (map fst os) (entry (fzero o) dims vals) (ops1 (cub1 lin) axes (map B2R x))
     (mcr_nd o c fma lin (mkRegular dims starts steps vals) x os) a b g Hb LF) with (k := length dims) (suf := @nil Z) as ((F & V) & _); auto.
  - intros idx. apply entry_dyadic; auto.
  - intros k f M Hk Hf. rewrite Hnd, NA by auto. replace (5 / 4) with (cubic_gain 1) by (unfold cubic_gain; field).
    destruct (AX k Hk) as (D & _). assert (S0 : 0 < B2R (sp k)) by (apply (Forall_nth_lt (fzero o) SP); lia).
    apply (cub1_norm _ (@reg_axis_inc (dd k) (B2R (st k)) (B2R (sp k)) S0)); auto.
    + intros i Hi _. unfold spacing. cbn [coord]. rewrite !plus_IZR. lra.
    + cbn [coord npts]. change (IZR 0) with 0. assert (Q := XR k Hk). lra.
  - intros k vs B G Hk H1 H2 H3 Hvs. cbv zeta. rewrite Hnd by auto. unfold mcr_nd. cbn [r_starts r_steps].
    assert (Ek := @mapM_snoc_nth _ az _ _ _ Eos k Hk). cbv beta in Ek.
    destruct (CE k Hk) as (p & Ep & Er). rewrite Ep in Ek. injection Ek as Ek. rewrite nth_map_fst, <- Ek.
    exact (Er fma lin vs B G H1 H2 H3 Hvs).
  - split; [exact F|].
    assert (LO : length (ops1 (cub1 lin) axes (map B2R x)) = length dims) by (rewrite ops1_length by auto; lia).
    replace (firstn (length dims) (ops1 (cub1 lin) axes (map B2R x))) with (ops1 (cub1 lin) axes (map B2R x)) in V by (rewrite <- LO, firstn_all; reflexivity).
    eapply eq_trans; [exact V|]. apply (tenL_ext _ _ LF). intros idx _. rewrite app_nil_r. symmetry. apply entry_real.
Qed.
Theorem cubic_exact_regular c' dom eval' : multicubic c' lin (map B2R vals) axes dom eval' ->
  exists y, eval x = Ok y /\ fin y /\ eval' (map B2R x) = Ok (B2R y).
Proof using All.
  intros M. destruct cubic_exact_core as (G & I & y & E & F & R). destruct (multicubic_value M) as (_ & _ & E').
  exists y. split; [exact E|]. split; [exact F|]. rewrite R. apply E'; [apply I|eapply multicubic_inside; eauto].
Qed.
End Reg.

(** ** Rectilinear grids *)
Section Rect.
Variables (c : cfg) (lin : bool) (grids : list (list fl)) (vals x : list fl) (eval : list fl -> outcome fl) (a b g : Z).
Notation axes := (rect_axes (map (map B2R) grids)).
Hypothesis H : float_cubic_rectilinear Hp He c lin grids vals eval.
Hypothesis I : Forall (increasing_grid o) grids.
Hypothesis S : Forall (Forall (@moderate prec emax)) grids.
Hypothesis Fx : Forall (fun v => fin v) x.
Hypothesis Hx : SpecReal.inside_grid axes (map B2R x).
Hypothesis P2 : (2 <= prec)%Z.
Hypothesis Ha : (0 <= a)%Z.
Hypothesis Hb : (0 <= b)%Z.
Hypothesis HD : Forall2 (even_dyadic_grid prec emax b) grids x.
Hypothesis HV : dyadic_values prec emax a g vals.
Hypothesis Hfit : (a + 3 + Z.of_nat (length grids) * (3 * b + 2) <= prec)%Z.
Hypothesis Hlow : (emin <= g - Z.of_nat (length grids) * (3 * b + 1))%Z.
Hypothesis Hhigh : (g + a + Z.of_nat (length grids) + 3 < emax)%Z.

Lemma cubic_exact_core_rect : exists y, eval x = Ok y /\ fin y /\
  B2R y = tenL (ops1 (cub1 lin) axes (map B2R x)) (entry 0 (map npts axes) (map B2R vals)).
Proof using All.
  destruct (float_cubic_rectilinear_inv _ _ _ _ _ _ _ _ _ H) as (W & fma & E).
  assert (W' := W). destruct W' as (W0 & _ & W2 & W3). cbn [g_grids g_dims g_vals] in *.
  assert (La : length (rect_axes (map (map (@B2R prec emax)) grids)) = length grids) by (unfold rect_axes; rewrite !map_length; auto).
  assert (Lx : length x = length grids) by (rewrite <- La, <- (proj1 Hx), map_length; auto). rewrite E by auto.
  assert (Good : Forall (good_axis 4) (rect_axes (map (map (@B2R prec emax)) grids))).
  { apply rect_axes_good; unfold grids_ok; rewrite Forall_map.
    - rewrite Forall_forall in *. intros g' Hg. apply (increasing_B2R prec emax Hp He); auto.
      eapply Forall_impl; [|exact (S g' Hg)]. intros v (Fv & _). exact Fv.
    - eapply Forall_impl; [|exact W2]. intros g' Hg. rewrite zlen_map. exact Hg. }
  eexists. split; [reflexivity|].
  assert (Bb : (b + 1 <= prec)%Z) by nia.
  assert (Dm : map npts (rect_axes (map (map (@B2R prec emax)) grids)) = map zlen grids).
  { rewrite rect_axes_npts, map_map. apply map_ext. intros g'. apply zlen_map. }
  assert (Lm : length (map B2R x) = length (rect_axes (map (map (@B2R prec emax)) grids))) by (rewrite map_length; lia).
  assert (LF := good_cub lin _ Lm Good). rewrite Dm in *.
  assert (LD : length (map zlen grids) = length grids) by apply map_length.
  assert (NA : forall k, (k < length grids)%nat -> nth k axes ax0 = list_axis (map B2R (nth k grids []))).
  { intros k Hk. rewrite rect_axes_nth by (rewrite map_length; auto).
    rewrite (nth_indep (map (map (@B2R prec emax)) grids) [] (map (@B2R prec emax) [])) by (rewrite map_length; auto). rewrite (map_nth (map (@B2R prec emax))). reflexivity. }
  set (xx := fun k => nth k x (fzero o)). set (gg := fun k => nth k grids []).
  assert (AX : forall k, (k < length grids)%nat -> increasing_grid o (gg k) /\ (4 <= zlen (gg k))%Z /\ Forall (@moderate prec emax) (gg k) /\ fin (xx k) /\
     coord (list_axis (map B2R (gg k))) 0 <= B2R (xx k) <= coord (list_axis (map B2R (gg k))) (npts (list_axis (map (@B2R prec emax) (gg k))) - 1) /\
     even_dyadic_grid prec emax b (gg k) (xx k)).
  { intros k Hk. split; [apply (Forall_nth_lt [] I Hk)|]. split; [apply (Forall_nth_lt [] W2 Hk)|]. split; [apply (Forall_nth_lt [] S Hk)|].
    split; [apply (Forall_nth_lt (fzero o) Fx); lia|].
    assert (Rx := proj2 Hx k (nth k axes ax0) ltac:(apply nth_error_nth_some; lia)).
    rewrite NA, (nth_B2R prec emax Hp He) in Rx by auto. split; [exact Rx|].
    exact (Forall2_nth_lt _ _ _ _ _ k [] (fzero o) HD Hk). }
  assert (Hnd : forall k, (k < length grids)%nat -> nth k (ops1 (cub1 lin) axes (map B2R x)) (fun _ => 0) = cub1 lin (list_axis (map B2R (gg k))) (B2R (xx k))).
  { intros k Hk. rewrite ops1_nth by (rewrite ?map_length; lia). rewrite NA by auto. rewrite (nth_B2R prec emax Hp He). reflexivity. }
  set (os := map fst (crect_cells o (mkRect grids (map zlen grids) vals) x)).
  destruct (tens4_exact prec emax Hp He (map zlen grids) os (entry (fzero o) (map zlen grids) vals) (ops1 (cub1 lin) axes (map B2R x))
     (mcc_nd o c fma lin (mkRect grids (map zlen grids) vals) x) a b g Hb LF) with (k := length (map (@zlen fl) grids)) (suf := @nil Z) as ((F & V) & _); auto; rewrite ?LD; auto.
  - intros idx. apply entry_dyadic; auto.
  - intros k f M Hk Hf. rewrite Hnd by auto. destruct (AX k Hk) as (X1 & X2 & X3 & X4 & X5 & X6).
    apply (crect_axis_bound prec emax Hp He b (gg k) (xx k) P2 Hb Bb X1 X2 X3 X4 X5 X6). intros i _. apply Hf.
  - intros k vs B G Hk H1 H2 H3 Hvs. cbv zeta. rewrite Hnd by auto. unfold mcc_nd. cbn [g_grids]. cbv zeta.
    destruct (AX k Hk) as (X1 & X2 & X3 & X4 & X5 & X6).
    replace (nth k os 0%Z) with (fst (crect_cell o (gg k) (xx k))).
    + exact (crect_axis_exact prec emax Hp He b (gg k) (xx k) P2 Hb Bb X1 X2 X3 X4 X5 X6 c fma lin vs B G H1 H2 H3 Hvs).
    + unfold os. rewrite nth_map_fst, crect_cells_nth by (cbn [g_grids]; lia). reflexivity.
  - rewrite LD in F, V. split; [exact F|].
    assert (LO : length (ops1 (cub1 lin) axes (map B2R x)) = length grids) by (rewrite ops1_length by auto; lia).
    replace (firstn (length grids) (ops1 (cub1 lin) axes (map B2R x))) with (ops1 (cub1 lin) axes (map B2R x)) in V by (rewrite <- LO, firstn_all; reflexivity).
    eapply eq_trans; [exact V|]. apply (tenL_ext _ _ LF). intros idx _. rewrite app_nil_r. symmetry. apply entry_real.
Qed.
Theorem cubic_exact_rectilinear c' dom eval' : multicubic c' lin (map B2R vals) axes dom eval' ->
  exists y, eval x = Ok y /\ fin y /\ eval' (map B2R x) = Ok (B2R y).
Proof using All.
  intros M. destruct cubic_exact_core_rect as (y & E & F & R). destruct (multicubic_value M) as (_ & _ & E').
  exists y. split; [exact E|]. split; [exact F|]. rewrite R. apply E'; [apply Hx|eapply multicubic_inside; eauto].
Qed.
End Rect.

(** ** The Python function *)
Section Python.
Variables (c : cfg) (obs grids : list (ndarray fl)) (vals o0 : ndarray fl) (lin assume : bool) (atol : fl) (a b g : Z).
Notation gs := (map nd_data grids).
Notation pt j := (point_of (fzero o) (map nd_data obs) j).
Notation n := (length (nd_data o0)).
Hypothesis Hc : good_call 4 o0 obs grids vals.
Hypothesis Hn : (1 <= length grids <= 8)%nat.
Hypothesis Hb : (0 <= b)%Z.
Hypothesis HV : dyadic_values prec emax a g (nd_data vals).
Hypothesis Hfit : (a + 3 + Z.of_nat (length grids) * (3 * b + 2) <= prec)%Z.
Hypothesis Hlow : (emin <= g - Z.of_nat (length grids) * (3 * b + 1))%Z.
Hypothesis Hhigh : (g + a + Z.of_nat (length grids) + 3 < emax)%Z.

Theorem cubic_exact_python c' dom eval' : (2 <= prec <= 62)%Z -> assume = true \/ Forall (evenly_spaced o) gs ->
  (forall j, (j < n)%nat -> Forall2 (fun gr xk => dyadic_axis prec emax b (nth 0 gr (fzero o)) (first_step prec emax Hp He gr) xk (zlen gr)) gs (pt j)) ->
  (0 < n)%nat ->
  multicubic c' lin (map B2R (nd_data vals)) (reg_axes (map zlen gs) (map B2R (firsts (fzero o) gs)) (map B2R (spacings o (fzero o) gs))) dom eval' ->
  exists r, fst (py_interpn o c obs grids vals "cubic" None lin assume false atol) = Ret r /\
  nd_shape r = nd_shape o0 /\ length (nd_data r) = n /\
  forall j, (j < n)%nat -> is_finite (nth j (nd_data r) (fzero o)) = true /\
    eval' (map B2R (pt j)) = Ok (B2R (nth j (nd_data r) (fzero o))).
Proof using All.
  intros P2 Hev HA N0 HM.
  assert (SP : Forall (fun h => flt o (fzero o) h = true) (spacings o (fzero o) gs)).
  { unfold spacings. rewrite Forall_map. specialize (HA 0%nat N0). apply Forall_forall. intros gr Hg.
    apply (In_nth _ _ []) in Hg as (k & Hk & <-).
    assert (L : (k < length (pt 0))%nat) by (rewrite <- (Forall2_len _ _ _ _ _ HA); exact Hk).
    assert (Q := Forall2_nth_lt _ _ _ _ _ k [] (fzero o) HA Hk). destruct Q as (_ & Fh & _ & e & Ve & _).
    apply ltb_fin; auto. unfold first_step in Ve. rewrite Ve. apply bpow_gt_0. }
  assert (RI := call_reg o c obs grids vals o0 (good4_2 obs grids vals o0 Hc) Hn).
  destruct (call_even3 o c obs grids vals o0 lin assume atol Hc Hn SP Hev) as (eval & Hs & Hr).
  assert (Hfl : float_cubic_regular Hp He c lin (map zlen gs) (firsts (fzero o) gs) (spacings o (fzero o) gs) (nd_data vals) eval).
  { destruct Hs as [(s & Es & ->)|(k & s & Es & ->)]; [apply float_cubic_regular_flat|apply float_cubic_regular_recursive]; auto. }
  assert (HT : forall j, (j < n)%nat -> exists y, eval (pt j) = Ok y /\ fin y /\ eval' (map B2R (pt j)) = Ok (B2R y)).
  { intros j Hj. specialize (HA j Hj). eapply (cubic_exact_regular c lin _ _ _ (nd_data vals) (pt j) eval a b g Hfl); eauto; rewrite ?map_length; auto.
    - rewrite <- (Forall2_len _ _ _ _ _ HA). rewrite map_length. reflexivity.
    - intros k start h d xk E1 E2 E3 E4. unfold firsts, spacings in E1, E2. rewrite nth_error_map in E1, E2, E3.
      destruct (nth_error gs k) as [gr|] eqn:Eg; cbn [option_map] in *; [|discriminate E1].
      injection E1 as <-. injection E2 as <-. injection E3 as <-.
      clear - HA Eg E4. revert k Eg E4. induction HA as [|g' x' l l' Q' R' IH]; intros [|k] Eg E4; cbn [nth_error] in *; try discriminate Eg.
      + injection Eg as <-. injection E4 as <-. exact Q'.
      + eapply IH; eauto. }
  destruct Hr as (r & R1 & R2 & R3 & R4).
  - intros j Hj. destruct (HT j Hj) as (y & Ey & _). eauto.
  - exists r. split; [exact R1|]. split; [exact R2|]. split; [exact R3|]. intros j Hj. destruct (HT j Hj) as (y & Ey & Fy).
    rewrite (R4 j Hj) in Ey. rewrite (ok_same _ _ Ey). exact Fy.
Qed.
End Python.
End B.
