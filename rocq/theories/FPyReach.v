(** The Python function interpn in floating point at any point, inside or outside the grid. *)
From Coq Require Import Reals Lra Lia List Bool ZifyBool ZifyNat PeanoNat String.
From Flocq Require Import Core.Core IEEE754.BinarySingleNaN.
From Verif Require Import Base Ops RInst FInst ModelCore ModelLinear ModelCubic ModelPython Spec SpecOrder SpecReal SpecIEEE SpecError Interpolators SpecApprox SpecExtrap SpecReach SpecCubicError SpecCubicReach SpecPython SpecDetect.
From Verif Require Import CoreLemmas MethodLemmas GenLemmas GenProofs GenProofs2 GenProofs3 OrderLemmas FLemmas FProofs FProofs2 FError2 FApprox FExtrap2 FCubicReg FCubicExtrap3 PyProofs FDetect FPython FPyCubic FExact RChar REval RProofs.
Import ListNotations.
Unset Implicit Arguments.
Open Scope string_scope.
Open Scope list_scope.
Open Scope R_scope.

Section B.
Variables prec emax : Z.
Context (Hp : Prec_gt_0 prec) (He : Prec_lt_emax prec emax).
Notation fl := (binary_float prec emax).
Notation o := (BOps Hp He).
Notation fin x := (is_finite x = true).

Section Call.
Variables (c : cfg) (obs grids : list (ndarray fl)) (vals o0 : ndarray fl) (lin assume : bool) (atol : fl).
Notation gs := (map nd_data grids).
Notation vs := (nd_data vals).
Notation pt j := (point_of (fzero o) (map nd_data obs) j).
Notation n := (length (nd_data o0)).
Notation dims := (map zlen gs).
Notation starts := (firsts (fzero o) gs).
Notation steps := (spacings o (fzero o) gs).
Hypothesis Hn : (1 <= length grids <= 8)%nat.

(** The call returns an array whose element j satisfies [P j]. *)
Notation gives method P := (exists r, fst (py_interpn o c obs grids vals method None lin assume false atol) = Ret r /\
  nd_shape r = nd_shape o0 /\ length (nd_data r) = n /\ forall j, (j < n)%nat -> P j (nth j (nd_data r) (fzero o))).

Lemma pt_length k j : good_call k o0 obs grids vals -> length (pt j) = length gs.
Proof using. intros (_ & L & _). unfold point_of. rewrite !map_length. exact L. Qed.
Lemma step_flt : Forall (fun h => 0 < B2R h) steps -> Forall (fun h => flt o (fzero o) h = true) steps.
Proof using.
  intros H. eapply Forall_impl; [|exact H]. intros h Hh. cbv beta in *. apply ltb_fin; auto.
  destruct h; simpl in Hh; auto; lra.
Qed.
Lemma two_increase k : (2 <= k)%nat -> good_call k o0 obs grids vals -> Forall (increasing_grid o) gs -> Forall (first_two_increase o) gs.
Proof using Hn.
  intros Hk Hc Hi. destruct Hc as (_ & _ & _ & G & _). rewrite Forall_forall in *. intros gr Hg. specialize (Hi gr Hg).
  apply in_map_iff in Hg as (g0 & <- & Hg0). specialize (G g0 Hg0).
  destruct (nd_data g0) as [|u [|v gr]]; simpl in *; try lia. apply (Hi 0%nat 1%nat); auto.
Qed.

Lemma py_linear_regular (P : nat -> fl -> Prop) : good_call 2 o0 obs grids vals -> Forall (fun h => 0 < B2R h) steps ->
  assume = true \/ Forall (evenly_spaced o) gs ->
  (forall eval, float_regular Hp He c dims starts steps vs eval -> forall j, (j < n)%nat -> exists y, eval (pt j) = Ok y /\ P j y) ->
  gives "linear" P.
Proof using Hn.
  intros Hc SP Hev HP. assert (RI := call_reg o c obs grids vals o0 Hc Hn).
  destruct (call_even o c obs grids vals o0 lin assume atol Hc Hn (step_flt SP) Hev) as (eval & Hs & Hr).
  assert (Hfl : float_regular Hp He c dims starts steps vs eval)
    by (destruct Hs as [(s & Es & ->)|(k & s & Es & ->)]; [apply float_regular_flat|apply float_regular_recursive]; auto).
  assert (HT := HP _ Hfl). destruct Hr as (r & R1 & R2 & R3 & R4).
  - intros j Hj. destruct (HT j Hj) as (y & Ey & _). eauto.
  - exists r. split; [exact R1|]. split; [exact R2|]. split; [exact R3|]. intros j Hj. destruct (HT j Hj) as (y & Ey & Fy).
    rewrite (R4 j Hj) in Ey. rewrite (ok_same _ _ Ey). exact Fy.
Qed.
Lemma py_linear_rectilinear (P : nat -> fl -> Prop) : good_call 2 o0 obs grids vals -> Forall (increasing_grid o) gs ->
  assume = false -> ~ Forall (evenly_spaced o) gs ->
  (forall eval, float_rectilinear Hp He c gs vs eval -> forall j, (j < n)%nat -> exists y, eval (pt j) = Ok y /\ P j y) ->
  gives "linear" P.
Proof using Hn.
  intros Hc Hi Ha Hne HP. assert (RI := call_rect o c obs grids vals o0 Hc Hn).
  destruct (call_uneven o c obs grids vals o0 lin assume atol Hc Hn (two_increase 2 ltac:(lia) Hc Hi) Ha Hne) as (eval & Hs & Hr).
  assert (Hfl : float_rectilinear Hp He c gs vs eval)
    by (destruct Hs as [(s & Es & ->)|(k & s & Es & ->)]; [apply float_rectilinear_flat|apply float_rectilinear_recursive]; auto).
  assert (HT := HP _ Hfl). destruct Hr as (r & R1 & R2 & R3 & R4).
  - intros j Hj. destruct (HT j Hj) as (y & Ey & _). eauto.
  - exists r. split; [exact R1|]. split; [exact R2|]. split; [exact R3|]. intros j Hj. destruct (HT j Hj) as (y & Ey & Fy).
    rewrite (R4 j Hj) in Ey. rewrite (ok_same _ _ Ey). exact Fy.
Qed.
Lemma py_cubic_regular (P : nat -> fl -> Prop) : good_call 4 o0 obs grids vals -> Forall (fun h => 0 < B2R h) steps ->
  assume = true \/ Forall (evenly_spaced o) gs ->
  (forall eval, float_cubic_regular Hp He c lin dims starts steps vs eval -> forall j, (j < n)%nat -> exists y, eval (pt j) = Ok y /\ P j y) ->
  gives "cubic" P.
Proof using Hn.
  intros Hc SP Hev HP. assert (RI := call_reg o c obs grids vals o0 (good4_2 obs grids vals o0 Hc) Hn).
  destruct (call_even3 o c obs grids vals o0 lin assume atol Hc Hn (step_flt SP) Hev) as (eval & Hs & Hr).
  assert (Hfl : float_cubic_regular Hp He c lin dims starts steps vs eval)
    by (destruct Hs as [(s & Es & ->)|(k & s & Es & ->)]; [apply float_cubic_regular_flat|apply float_cubic_regular_recursive]; auto).
  assert (HT := HP _ Hfl). destruct Hr as (r & R1 & R2 & R3 & R4).
  - intros j Hj. destruct (HT j Hj) as (y & Ey & _). eauto.
  - exists r. split; [exact R1|]. split; [exact R2|]. split; [exact R3|]. intros j Hj. destruct (HT j Hj) as (y & Ey & Fy).
    rewrite (R4 j Hj) in Ey. rewrite (ok_same _ _ Ey). exact Fy.
Qed.
Lemma py_cubic_rectilinear (P : nat -> fl -> Prop) : good_call 4 o0 obs grids vals -> Forall (increasing_grid o) gs ->
  assume = false -> ~ Forall (evenly_spaced o) gs ->
  (forall eval, float_cubic_rectilinear Hp He c lin gs vs eval -> forall j, (j < n)%nat -> exists y, eval (pt j) = Ok y /\ P j y) ->
  gives "cubic" P.
Proof using Hn.
  intros Hc Hi Ha Hne HP. assert (RI := call_rect o c obs grids vals o0 (good4_2 obs grids vals o0 Hc) Hn).
  destruct (call_uneven3 o c obs grids vals o0 lin assume atol Hc Hn (two_increase 4 ltac:(lia) Hc Hi) Ha Hne) as (eval & Hs & Hr).
  assert (Hfl : float_cubic_rectilinear Hp He c lin gs vs eval)
    by (destruct Hs as [(s & Es & ->)|(k & s & Es & ->)]; [apply float_cubic_rectilinear_flat|apply float_cubic_rectilinear_recursive]; auto).
  assert (HT := HP _ Hfl). destruct Hr as (r & R1 & R2 & R3 & R4).
  - intros j Hj. destruct (HT j Hj) as (y & Ey & _). eauto.
  - exists r. split; [exact R1|]. split; [exact R2|]. split; [exact R3|]. intros j Hj. destruct (HT j Hj) as (y & Ey & Fy).
    rewrite (R4 j Hj) in Ey. rewrite (ok_same _ _ Ey). exact Fy.
Qed.

(** ** Linear, regular *)
Section LinReg.
Variables (A kappa : R).
Notation axes := (reg_axes dims (map B2R starts) (map B2R steps)).
Notation xr j := (map B2R (pt j)).
Notation err j := (reach_factor axes (xr j) * regular_error prec emax (length grids) kappa A).
Hypothesis Hc : good_call 2 o0 obs grids vals.
Hypothesis Hev : assume = true \/ Forall (evenly_spaced o) gs.
Hypothesis SP : Forall (fun h => 0 < B2R h) steps.
Hypothesis Ha : axes_within prec emax kappa starts steps dims.
Hypothesis Hx : forall j, (j < n)%nat -> point_within prec emax kappa steps (pt j) /\ reach_fits emax axes (xr j) A.
Hypothesis Hv : bounded_values prec emax A vs.
Hypothesis HN : 504 * INR (length grids) * (roundoff prec * kappa) <= 1.
Hypothesis Hprec : (prec <= 64)%Z.
Theorem reach_linear_regular c' (dom : list R -> Prop) eval' : multilinear c' (map B2R vs) axes dom eval' -> (forall j, (j < n)%nat -> dom (xr j)) ->
  gives "linear" (fun j y => exists e, eval' (xr j) = Ok e /\ fin y /\ Rabs (B2R y - e) <= err j).
Proof using All.
  intros HM HD. apply py_linear_regular; auto. intros eval Hf j Hj. destruct (Hx j Hj) as (H1 & H2).
  assert (Ld : length (map (@zlen fl) gs) = length grids) by (rewrite !map_length; reflexivity).
  destruct (C62_proof_regular_exact prec emax Hp He c dims starts steps vs eval (pt j) A kappa Hf Ha ltac:(rewrite Ld, (pt_length 2 j Hc), map_length; reflexivity)
    H1 Hv H2 ltac:(rewrite Ld; exact HN) Hprec c' dom eval' HM (HD j Hj)) as (y & r & E & F & E' & B).
  exists y. split; [exact E|]. exists r. split; [exact E'|]. split; [exact F|]. rewrite Ld in B. exact B.
Qed.
Theorem reach_linear_regular_function f e M : samples_within e axes (map B2R vs) f ->
  (forall j k, (j < n)%nat -> (k < length grids)%nat -> second_derivative_reaching axes (xr j) f k (M k)) ->
  gives "linear" (fun j y => fin y /\ Rabs (B2R y - f (xr j)) <= err j + reach_factor axes (xr j) * e + sum_upto (length grids) (fun k =>
    prod_upto k (fun i => 1 + 2 * outside_by axes (xr j) i) * (M k * B2R (nth k steps (fzero o)) ^ 2 * linear_miss (outside_by axes (xr j) k)))).
Proof using All.
  intros Hs HM. apply py_linear_regular; auto. intros eval Hf j Hj. destruct (Hx j Hj) as (H1 & H2).
  assert (Ld : length (map (@zlen fl) gs) = length grids) by (rewrite !map_length; reflexivity).
  assert (La : length axes = length grids) by (rewrite reg_axes_length; unfold firsts, spacings; rewrite !map_length; auto).
  destruct (C63_proof_regular prec emax Hp He c dims starts steps vs eval (pt j) A kappa Hf Ha ltac:(rewrite Ld, (pt_length 2 j Hc), map_length; reflexivity)
    H1 Hv H2 ltac:(rewrite Ld; exact HN) Hprec f e M Hs ltac:(rewrite La; intros k Hk; apply HM; auto)) as (y & E & F & B).
  exists y. split; [exact E|]. split; [exact F|]. rewrite Ld, La in B. exact B.
Qed.
End LinReg.

(** ** Linear, rectilinear *)
Section LinRect.
Variables (A : R).
Notation axes := (rect_axes (map (map B2R) gs)).
Notation xr j := (map B2R (pt j)).
Notation err j := (reach_factor axes (xr j) * rectilinear_reach_error prec emax (length grids) A).
Hypothesis Hc : good_call 2 o0 obs grids vals.
Hypothesis Hass : assume = false.
Hypothesis Hne : ~ Forall (evenly_spaced o) gs.
Hypothesis Hi : Forall (increasing_grid o) gs.
Hypothesis Hm : Forall (Forall (@moderate prec emax)) gs.
Hypothesis Hx : forall j, (j < n)%nat -> Forall (@moderate prec emax) (pt j) /\ reach_fits emax axes (xr j) A.
Hypothesis Hv : bounded_values prec emax A vs.
Hypothesis HN : 144 * INR (length grids) * roundoff prec <= 1.
Theorem reach_linear_rectilinear c' (dom : list R -> Prop) eval' : multilinear c' (map B2R vs) axes dom eval' -> (forall j, (j < n)%nat -> dom (xr j)) ->
  gives "linear" (fun j y => exists e, eval' (xr j) = Ok e /\ fin y /\ Rabs (B2R y - e) <= err j).
Proof using All.
  intros HM HD. apply py_linear_rectilinear; auto. intros eval Hf j Hj. destruct (Hx j Hj) as (H1 & H2).
  assert (Ld : length gs = length grids) by apply map_length.
  destruct (C62_proof_rectilinear_exact prec emax Hp He c gs vs eval (pt j) A Hf Hi Hm H1 (pt_length 2 j Hc)
    Hv H2 ltac:(rewrite Ld; exact HN) c' dom eval' HM (HD j Hj)) as (y & r & E & F & E' & B).
  exists y. split; [exact E|]. exists r. split; [exact E'|]. split; [exact F|]. rewrite Ld in B. exact B.
Qed.
Theorem reach_linear_rectilinear_function f e M h : samples_within e axes (map B2R vs) f ->
  (forall j k, (j < n)%nat -> (k < length grids)%nat -> second_derivative_reaching axes (xr j) f k (M k)) ->
  (forall k a, nth_error axes k = Some a -> spacing_at_most a (h k)) ->
  gives "linear" (fun j y => fin y /\ Rabs (B2R y - f (xr j)) <= err j + reach_factor axes (xr j) * e + sum_upto (length grids) (fun k =>
    prod_upto k (fun i => 1 + 2 * outside_by axes (xr j) i) * (M k * h k ^ 2 * linear_miss (outside_by axes (xr j) k)))).
Proof using All.
  intros Hs HM Hh. apply py_linear_rectilinear; auto. intros eval Hf j Hj. destruct (Hx j Hj) as (H1 & H2).
  assert (Ld : length gs = length grids) by apply map_length.
  assert (La : length axes = length grids) by (unfold rect_axes; rewrite !map_length; auto).
  destruct (C63_proof_rectilinear prec emax Hp He c gs vs eval (pt j) A Hf Hi Hm H1 (pt_length 2 j Hc)
    Hv H2 ltac:(rewrite Ld; exact HN) f e M h Hs ltac:(rewrite La; intros k Hk; apply HM; auto) Hh) as (y & E & F & B).
  exists y. split; [exact E|]. split; [exact F|]. rewrite Ld, La in B. exact B.
Qed.
End LinRect.

(** ** Cubic, regular *)
Section CubReg.
Variables (A kappa D : R).
Notation axes := (reg_axes dims (map B2R starts) (map B2R steps)).
Notation xr j := (map B2R (pt j)).
Notation gain := (cubic_reach_gain lin 1 D).
Notation stretch := (cubic_stretch lin D).
Notation err := (cubic_reach_error prec emax gain (regular_gamma prec kappa) stretch (length grids) A).
Hypothesis Hc : good_call 4 o0 obs grids vals.
Hypothesis Hev : assume = true \/ Forall (evenly_spaced o) gs.
Hypothesis SP : Forall (fun h => 0 < B2R h) steps.
Hypothesis Ha : axes_within prec emax kappa starts steps dims.
Hypothesis Hx : forall j, (j < n)%nat -> point_within prec emax kappa steps (pt j) /\ outside_at_most axes (xr j) D.
Hypothesis Hv : cubic_reach_values prec emax 1 gain (regular_gamma prec kappa) stretch (length grids) A vs.
Hypothesis HN : 2000 * INR (length grids) * (roundoff prec * kappa) <= 1.
Hypothesis Hprec : (prec <= 64)%Z.
Theorem reach_cubic_regular c' (dom : list R -> Prop) eval' : multicubic c' lin (map B2R vs) axes dom eval' -> (forall j, (j < n)%nat -> dom (xr j)) ->
  gives "cubic" (fun j y => exists e, eval' (xr j) = Ok e /\ fin y /\ Rabs (B2R y - e) <= err).
Proof using All.
  intros HM HD. apply py_cubic_regular; auto. intros eval Hf j Hj. destruct (Hx j Hj) as (H1 & H2).
  assert (Ld : length (map (@zlen fl) gs) = length grids) by (rewrite !map_length; reflexivity).
  destruct (C75_proof_regular prec emax Hp He c lin dims starts steps vs eval (pt j) A kappa D Hf Ha ltac:(rewrite Ld, (pt_length 4 j Hc), map_length; reflexivity)
    H1 H2 ltac:(rewrite Ld; exact Hv) ltac:(rewrite Ld; exact HN) Hprec c' dom eval' HM (HD j Hj)) as (y & r & E & F & E' & B).
  exists y. split; [exact E|]. exists r. split; [exact E'|]. split; [exact F|]. rewrite Ld in B. exact B.
Qed.
Theorem reach_cubic_regular_function f e M N : samples_within e axes (map B2R vs) f ->
  (forall j k, (j < n)%nat -> (k < length grids)%nat -> third_derivative_reaching axes (xr j) f k (M k)) ->
  (lin = true -> forall j k, (j < n)%nat -> (k < length grids)%nat -> second_derivative_reaching axes (xr j) f k (N k)) ->
  gives "cubic" (fun j y => fin y /\ Rabs (B2R y - f (xr j)) <= err
    + prod_upto (length grids) (fun k => cubic_reach_gain lin 1 (outside_by axes (xr j) k)) * e
    + sum_upto (length grids) (fun k => prod_upto k (fun i => cubic_reach_gain lin 1 (outside_by axes (xr j) i))
        * cubic_reach_miss lin (M k) (N k) (B2R (nth k steps (fzero o))) (outside_by axes (xr j) k))).
Proof using All.
  intros Hs HM HN'. apply py_cubic_regular; auto. intros eval Hf j Hj. destruct (Hx j Hj) as (H1 & H2).
  assert (Ld : length (map (@zlen fl) gs) = length grids) by (rewrite !map_length; reflexivity).
  assert (La : length axes = length grids) by (rewrite reg_axes_length; unfold firsts, spacings; rewrite !map_length; auto).
  destruct (C76_proof_regular prec emax Hp He c lin dims starts steps vs eval (pt j) A kappa D Hf Ha ltac:(rewrite Ld, (pt_length 4 j Hc), map_length; reflexivity)
    H1 H2 ltac:(rewrite Ld; exact Hv) ltac:(rewrite Ld; exact HN) Hprec f e M N Hs ltac:(rewrite La; intros k Hk; apply HM; auto)
    ltac:(rewrite La; intros Hl k Hk; apply HN'; auto)) as (y & E & F & B).
  exists y. split; [exact E|]. split; [exact F|]. rewrite Ld, La in B. exact B.
Qed.
End CubReg.

(** ** Cubic, rectilinear *)
Section CubRect.
Variables (A rho D : R).
Notation axes := (rect_axes (map (map B2R) gs)).
Notation xr j := (map B2R (pt j)).
Notation gain := (cubic_reach_gain lin rho D).
Notation stretch := (cubic_stretch lin D).
Notation err := (cubic_reach_error prec emax gain (rectilinear_gamma prec rho) stretch (length grids) A).
Hypothesis Hc : good_call 4 o0 obs grids vals.
Hypothesis Hass : assume = false.
Hypothesis Hne : ~ Forall (evenly_spaced o) gs.
Hypothesis Hi : Forall (increasing_grid o) gs.
Hypothesis Hm : Forall (Forall (@moderate prec emax)) gs.
Hypothesis Hx : forall j, (j < n)%nat -> Forall (@moderate prec emax) (pt j) /\ outside_at_most axes (xr j) D.
Hypothesis Hr1 : 1 <= rho.
Hypothesis Hr : Forall (fun a => spacing_ratio_at_most a rho) axes.
Hypothesis Hv : cubic_reach_values prec emax rho gain (rectilinear_gamma prec rho) stretch (length grids) A vs.
Hypothesis HN : 14000 * INR (length grids) * (roundoff prec * rho) <= 1.
Theorem reach_cubic_rectilinear c' (dom : list R -> Prop) eval' : multicubic c' lin (map B2R vs) axes dom eval' -> (forall j, (j < n)%nat -> dom (xr j)) ->
  gives "cubic" (fun j y => exists e, eval' (xr j) = Ok e /\ fin y /\ Rabs (B2R y - e) <= err).
Proof using All.
  intros HM HD. apply py_cubic_rectilinear; auto. intros eval Hf j Hj. destruct (Hx j Hj) as (H1 & H2).
  assert (Ld : length gs = length grids) by apply map_length.
  destruct (C75_proof_rectilinear prec emax Hp He c lin gs vs eval (pt j) A rho D Hf Hi Hm H1 (pt_length 4 j Hc)
    H2 Hr1 Hr ltac:(rewrite Ld; exact Hv) ltac:(rewrite Ld; exact HN) c' dom eval' HM (HD j Hj)) as (y & r & E & F & E' & B).
  exists y. split; [exact E|]. exists r. split; [exact E'|]. split; [exact F|]. rewrite Ld in B. exact B.
Qed.
Theorem reach_cubic_rectilinear_function f e M N h : samples_within e axes (map B2R vs) f ->
  (forall j k, (j < n)%nat -> (k < length grids)%nat -> third_derivative_reaching axes (xr j) f k (M k)) ->
  (lin = true -> forall j k, (j < n)%nat -> (k < length grids)%nat -> second_derivative_reaching axes (xr j) f k (N k)) ->
  (forall k a, nth_error axes k = Some a -> spacing_at_most a (h k)) ->
  gives "cubic" (fun j y => fin y /\ Rabs (B2R y - f (xr j)) <= err
    + prod_upto (length grids) (fun k => cubic_reach_gain lin rho (outside_by axes (xr j) k)) * e
    + sum_upto (length grids) (fun k => prod_upto k (fun i => cubic_reach_gain lin rho (outside_by axes (xr j) i))
        * cubic_reach_miss lin (M k) (N k) (h k) (outside_by axes (xr j) k))).
Proof using All.
  intros Hs HM HN' Hh. apply py_cubic_rectilinear; auto. intros eval Hf j Hj. destruct (Hx j Hj) as (H1 & H2).
  assert (Ld : length gs = length grids) by apply map_length.
  assert (La : length axes = length grids) by (unfold rect_axes; rewrite !map_length; auto).
  destruct (C76_proof_rectilinear prec emax Hp He c lin gs vs eval (pt j) A rho D Hf Hi Hm H1 (pt_length 4 j Hc)
    H2 Hr1 Hr ltac:(rewrite Ld; exact Hv) ltac:(rewrite Ld; exact HN) f e M N h Hs ltac:(rewrite La; intros k Hk; apply HM; auto)
    ltac:(rewrite La; intros Hl k Hk; apply HN'; auto) Hh) as (y & E & F & B).
  exists y. split; [exact E|]. split; [exact F|]. rewrite Ld, La in B. exact B.
Qed.
End CubRect.
End Call.
End B.
