(** The Python function interpn in floating point, method "linear": distance of the results from
    the exact multilinear interpolant of the grids given, and from a smooth function. *)
From Coq Require Import Reals Lra Lia List Bool ZifyBool ZifyNat PeanoNat String.
From Flocq Require Import Core.Core IEEE754.BinarySingleNaN.
From Verif Require Import Base Ops FInst ModelCore ModelLinear ModelPython Spec SpecOrder SpecIEEE SpecError SpecPython.
From Verif Require Import CoreLemmas MethodLemmas MethodChar GenLemmas GenProofs GenProofs2 GenProofs3 FLemmas FProofs FProofs2 FError FError2.
From Verif Require Import RInst SpecReal RTensor R1D RChar Interpolators REval RProofs SpecApprox Approx1D Approx Shape FApprox.
From Verif Require Import SpecDetect FDetect UtilProofs PyProofs.
Import ListNotations.
Unset Implicit Arguments.
Open Scope list_scope.
Open Scope string_scope.

Lemma ok_same {A} (a b : A) : Ok a = Ok b -> a = b.
Proof. intros H. injection H. auto. Qed.

(** ** The call, for any number type *)
Section Call.
Open Scope Z_scope.
Context {F : Type} (o : Ops F).
Variables (c : cfg) (obs grids : list (ndarray F)) (vals o0 : ndarray F) (lin assume : bool) (atol : F).
Notation gs := (map nd_data grids).
Notation os := (map nd_data obs).
Notation vs := (nd_data vals).
Notation n := (length (nd_data o0)).
Notation zeros := (repeat (fzero o) (length (nd_data o0))).
Notation dims := (map zlen gs).
Notation starts := (firsts (fzero o) gs).
Notation steps := (spacings o (fzero o) gs).
Hypothesis Hc : good_call 2 o0 obs grids vals.
Hypothesis Hn : (1 <= length grids <= 8)%nat.

Lemma call_lens : Forall (fun g => (2 <= length g)%nat) gs /\ zlen vs = zprod dims /\ zlen vs <= isize_max /\
  Forall (fun d => 2 <= d) dims /\ prefix_products_fit dims /\ zprod dims < two64 /\
  Forall (fun xs => length xs = length zeros) os.
Proof using o Hc Hn.
  destruct Hc as (H1 & H2 & H3 & H4 & H5 & H6).
  assert (G : Forall (fun g => (2 <= length g)%nat) gs) by (rewrite Forall_map; exact H4).
  assert (D : Forall (fun d => 2 <= d) dims).
  { rewrite Forall_map. eapply Forall_impl; [|exact G]. unfold zlen. simpl; intros; lia. }
  assert (L : zlen vs = zprod dims) by (rewrite map_map; exact H5).
  split; [exact G|]. split; [exact L|]. split; [exact H6|]. split; [exact D|]. split; [|split].
  - apply prefix_fit; [eapply Forall_impl; [|exact D]; simpl; intros; lia|]. rewrite <- L. exact H6.
  - rewrite <- L. unfold isize_max, two64 in *. lia.
  - rewrite repeat_length, Forall_map. exact H3.
Qed.
Lemma call_rect : rect_input c gs vs.
Proof using o Hc Hn.
  destruct call_lens as (_ & L & M & _ & _ & P & _). split; [rewrite map_length; lia|]. split; [exact M|]. right. exact P.
Qed.
Lemma call_reg : reg_input c dims starts steps vs.
Proof using o Hc Hn.
  destruct call_lens as (_ & L & M & D & _ & P & _). unfold reg_input, firsts, spacings. rewrite !map_length. repeat split; auto; try lia.
Qed.

Definition returned (eval : list F -> outcome F) : Prop := exists r,
  fst (py_interpn o c obs grids vals "linear" None lin assume false atol) = Ret r /\
  nd_shape r = nd_shape o0 /\ length (nd_data r) = n /\
  forall j, (j < n)%nat -> eval (point_of (fzero o) os j) = Ok (nth j (nd_data r) (fzero o)).

Lemma returned_intro eval r : fst (py_interpn o c obs grids vals "linear" None lin assume false atol) = python_result (nd_shape o0) r ->
  batch_spec (fzero o) eval os zeros (fst r) (snd r) ->
  (forall j, (j < n)%nat -> exists v, eval (point_of (fzero o) os j) = Ok v) -> returned eval.
Proof using.
  intros Hr Hb Ht. destruct (batch_total (fzero o) eval os zeros r Hb) as (data & Er & Ld & Hd).
  - intros j Hj. rewrite repeat_length in Hj. auto.
  - rewrite Er in Hr. simpl in Hr. rewrite repeat_length in *. exists (mkNd (nd_shape o0) data). rewrite Hr. simpl. auto.
Qed.

Lemma call_even : Forall (fun h => flt o (fzero o) h = true) steps -> assume = true \/ Forall (evenly_spaced o) gs ->
  exists eval,
    ((exists s, mlr_new o c dims starts steps vs = Ok s /\ eval = mlr_interp_one o c s) \/
     (exists m s, mlrr_new o c m dims starts steps vs = Ok s /\ eval = mlrr_interp_one o c m s)) /\
    ((forall j, (j < n)%nat -> exists v, eval (point_of (fzero o) os j) = Ok v) -> returned eval).
Proof using o Hc Hn.
  intros Hs Ha. destruct call_lens as (G & L & M & D & P & P2 & Li). destruct Hc as (Ho & Lo & _ & G2 & _).
  assert (Ld : length dims = length grids) by (rewrite !map_length; reflexivity).
  assert (Lst : length starts = length dims) by (unfold firsts; rewrite !map_length; reflexivity).
  assert (Lsp : length steps = length dims) by (unfold spacings; rewrite !map_length; reflexivity).
  assert (Los : length os = length dims) by (rewrite Ld, map_length; exact Lo).
  assert (E := proj1 (dispatch_regular o c obs grids vals o0 lin assume atol Ho ltac:(lia) G2 Ha)).
  destruct (Nat.le_gt_cases (length grids) 6) as [H6|H6].
  - assert (N' : mlr_new o c dims starts steps vs = Ok (mkRegular dims starts steps vs)) by (eapply accept3; [apply new_checks_mlr; auto; lia|..]; auto).
    eexists. split; [left; eexists; split; [exact N'|reflexivity]|]. intros Ht.
    eapply returned_intro; [rewrite E; reflexivity| |exact Ht].
    eapply (interpn_batch_mlr o c); eauto. rewrite Ld. lia.
  - assert (N' : mlrr_new o c (length dims) dims starts steps vs = Ok (mkRegular dims starts steps vs))
      by (eapply accept3; [apply new_checks_mlrr; auto; lia|..]; auto; repeat split; auto; lia).
    eexists. split; [right; do 2 eexists; split; [exact N'|reflexivity]|]. intros Ht.
    eapply returned_intro; [rewrite E; reflexivity| |exact Ht].
    eapply (interpn_batch_mlrr o c); eauto; rewrite ?Ld; lia.
Qed.

Lemma call_uneven : Forall (first_two_increase o) gs -> assume = false -> ~ Forall (evenly_spaced o) gs ->
  exists eval,
    ((exists s, mlc_new o c gs vs = Ok s /\ eval = mlc_interp_one o c s) \/
     (exists m s, mlcr_new o c m gs vs = Ok s /\ eval = mlcr_interp_one o c m s)) /\
    ((forall j, (j < n)%nat -> exists v, eval (point_of (fzero o) os j) = Ok v) -> returned eval).
Proof using o Hc Hn.
  intros Hs Ha Hne. destruct call_lens as (G & L & M & D & P & P2 & Li). destruct Hc as (Ho & Lo & _ & G2 & _).
  assert (Lg : length gs = length grids) by (rewrite !map_length; reflexivity).
  assert (Los : length os = length gs) by (rewrite Lg, map_length; exact Lo).
  assert (EZ : Forall (fun g : list F => 2 <= zlen g) gs) by (rewrite Forall_map in D; exact D).
  assert (E := proj1 (dispatch_rectilinear o c obs grids vals o0 lin assume atol Ho ltac:(lia) G2 Ha Hne ltac:(lia))).
  destruct (Nat.le_gt_cases (length grids) 6) as [H6|H6].
  - assert (N' : mlc_new o c gs vs = Ok (mkRect gs dims vs)) by (eapply accept3; [apply new_checks_mlc; auto; lia|..]; auto).
    eexists. split; [left; eexists; split; [exact N'|reflexivity]|]. intros Ht.
    eapply returned_intro; [rewrite E; reflexivity| |exact Ht].
    eapply (interpn_batch_mlc o c); eauto; rewrite ?Lg; lia.
  - assert (N' : mlcr_new o c (length gs) gs vs = Ok (mkRect gs dims vs)) by (eapply accept3; [apply new_checks_mlcr; auto; lia|..]; auto).
    eexists. split; [right; do 2 eexists; split; [exact N'|reflexivity]|]. intros Ht.
    eapply returned_intro; [rewrite E; reflexivity| |exact Ht].
    eapply (interpn_batch_mlcr o c); eauto; rewrite ?Lg; lia.
Qed.
End Call.

(** ** IEEE floats *)
Section B.
Open Scope R_scope.
Variables prec emax : Z.
Context (Hp : Prec_gt_0 prec) (He : Prec_lt_emax prec emax).
Notation fl := (binary_float prec emax).
Notation o := (BOps Hp He).
Notation fin x := (is_finite x = true).
Variables (c : cfg) (obs grids : list (ndarray fl)) (vals o0 : ndarray fl) (lin assume : bool) (atol : fl) (A : R).
Notation gs := (map nd_data grids).
Notation os := (map nd_data obs).
Notation vs := (nd_data vals).
Notation n := (length (nd_data o0)).
Notation axes := (rect_axes (map (map B2R) gs)).
Notation V := (entry 0 (map npts axes) (map B2R vs)).
Notation pt j := (point_of (fzero o) os j).
Hypothesis Hc : good_call 2 o0 obs grids vals.
Hypothesis Hn : (1 <= length grids <= 8)%nat.
Hypothesis Hi : Forall (increasing_grid o) gs.
Hypothesis Fx : Forall (Forall (fun v => fin v)) os.
Hypothesis Hx : forall j, (j < n)%nat -> SpecReal.inside_grid axes (map B2R (pt j)).
Hypothesis Hv : bounded_values prec emax A vs.

Lemma pt_fin j : Forall (fun v => fin v) (pt j).
Proof using Fx.
  unfold point_of. rewrite Forall_map. eapply Forall_impl; [|exact Fx]. intros xs Hxs.
  destruct (nth_in_or_default j xs (fzero o)) as [I| ->]; [|reflexivity]. rewrite Forall_forall in Hxs. auto.
Qed.
Lemma grids_two : Forall (fun g => (2 <= length g)%nat) gs.
Proof using Hp He Hc Hn. apply (call_lens o obs grids vals o0 Hc Hn). Qed.

(** The results, compared with the numbers [T j]. *)
Definition close_to (T : nat -> R) (e : R) : Prop := exists r,
  fst (py_interpn o c obs grids vals "linear" None lin assume false atol) = Ret r /\
  nd_shape r = nd_shape o0 /\ length (nd_data r) = n /\
  forall j, (j < n)%nat -> fin (nth j (nd_data r) (fzero o)) /\ Rabs (B2R (nth j (nd_data r) (fzero o)) - T j) <= e.

Lemma close_intro eval T e : (( forall j, (j < n)%nat -> exists v, eval (pt j) = Ok v) -> returned o c obs grids vals o0 lin assume atol eval) ->
  (forall j, (j < n)%nat -> exists y, eval (pt j) = Ok y /\ fin y /\ Rabs (B2R y - T j) <= e) -> close_to T e.
Proof using.
  intros H HT. destruct H as (r & R1 & R2 & R3 & R4).
  - intros j Hj. destruct (HT j Hj) as (y & Ey & _). eauto.
  - exists r. split; [exact R1|]. split; [exact R2|]. split; [exact R3|]. intros j Hj.
    destruct (HT j Hj) as (y & Ey & Fy & By). rewrite (R4 j Hj) in Ey. rewrite (ok_same _ _ Ey). auto.
Qed.

Section Even.
Variable kappa : R.
Hypothesis Hev : Forall (evenly_spaced o) gs.
Hypothesis Hw : Forall (grid_within prec emax Hp He kappa) gs.
Hypothesis HA : A <= bpow radix2 (emax - 5).
Hypothesis HN : 525 * INR (length grids) * (roundoff prec * kappa) <= 1.
Hypothesis Hprec : (prec <= 64)%Z.

Lemma steps_pos : Forall (fun h => flt o (fzero o) h = true) (spacings o (fzero o) gs).
Proof using All.
  assert (E1 : 525 * (roundoff prec * kappa) <= 1).
  { assert (1 <= INR (length grids)) by (change 1 with (INR 1); apply le_INR; lia).
    destruct (Rle_dec (roundoff prec * kappa) 0); [lra|nra]. }
  assert (G2 := grids_two). unfold spacings. rewrite Forall_map. rewrite Forall_forall in *. intros g Hg.
  assert (P := h_pos prec emax Hp He g kappa (G2 g Hg) (Hi g Hg) (Hev g Hg) (Hw g Hg) E1).
  destruct (Hw g Hg) as (Ff & _). apply ltb_fin; auto.
Qed.
Lemma even_core : close_to (fun j => tenL (ops1 lin1 axes (map B2R (pt j))) V) (detected_error prec emax (length grids) kappa A).
Proof using All.
  destruct (call_even o c obs grids vals o0 lin assume atol Hc Hn steps_pos (or_intror Hev)) as (eval & Hs & Hr).
  apply (close_intro eval _ _ Hr). intros j Hj. rewrite <- (map_length nd_data grids).
  assert (RI := call_reg o c obs grids vals o0 Hc Hn).
  apply (detected prec emax Hp He c gs vs eval (pt j) A kappa); auto; [|apply pt_fin|rewrite map_length; exact HN].
  destruct Hs as [(s & Es & ->)|(m & s & Es & ->)]; [apply float_regular_flat|apply float_regular_recursive]; auto.
Qed.
Theorem C79_proof_even c' dom eval' : multilinear c' (map B2R vs) axes dom eval' -> exists r,
  fst (py_interpn o c obs grids vals "linear" None lin assume false atol) = Ret r /\
  nd_shape r = nd_shape o0 /\ length (nd_data r) = n /\
  forall j, (j < n)%nat -> exists e, eval' (map B2R (pt j)) = Ok e /\ fin (nth j (nd_data r) (fzero o)) /\
    Rabs (B2R (nth j (nd_data r) (fzero o)) - e) <= detected_error prec emax (length grids) kappa A.
Proof using All.
  intros H. destruct (multilinear_value H) as (_ & _ & E'). destruct even_core as (r & R1 & R2 & R3 & R4).
  exists r. split; [exact R1|]. split; [exact R2|]. split; [exact R3|]. intros j Hj. destruct (R4 j Hj) as (F & B).
  eexists. split; [apply E'; [apply Hx; exact Hj|eapply multilinear_inside; eauto]|]. split; auto.
Qed.
Theorem C80_proof_even f e M h :
  samples_within e axes (map B2R vs) f ->
  (forall k, (k < length axes)%nat -> second_derivative_at_most axes f k (M k)) ->
  (forall k a, nth_error axes k = Some a -> spacing_at_most a (h k)) -> exists r,
  fst (py_interpn o c obs grids vals "linear" None lin assume false atol) = Ret r /\
  nd_shape r = nd_shape o0 /\ length (nd_data r) = n /\
  forall j, (j < n)%nat -> fin (nth j (nd_data r) (fzero o)) /\
    Rabs (B2R (nth j (nd_data r) (fzero o)) - f (map B2R (pt j))) <= detected_error prec emax (length grids) kappa A + e
    + sum_upto (length axes) (fun k => M k * h k ^ 2 / 8).
Proof using All.
  intros Hs HM Hh. destruct even_core as (r & R1 & R2 & R3 & R4).
  exists r. split; [exact R1|]. split; [exact R2|]. split; [exact R3|]. intros j Hj. destruct (R4 j Hj) as (F & B). split; [exact F|].
  assert (G : Forall (good_axis 2) axes).
  { assert (HN' := HN). rewrite <- (map_length nd_data grids) in HN'.
    destruct (call_even o c obs grids vals o0 lin assume atol Hc Hn steps_pos (or_intror Hev)) as (eval & Hss & _).
    eapply (good_rect prec emax Hp He c gs vs eval (pt j) A kappa); eauto; [|apply pt_fin].
    assert (RI := call_reg o c obs grids vals o0 Hc Hn).
    destruct Hss as [(s & Es & ->)|(m & s & Es & ->)]; [apply float_regular_flat|apply float_regular_recursive]; auto. }
  exact (three_errors _ _ _ _ _ _ _ B (lin_near _ _ _ _ _ G (Hx j Hj) Hs) (lin_approx_val_grid _ _ _ _ _ G (Hx j Hj) HM Hh)).
Qed.
End Even.

Section Uneven.
Hypothesis Ha : assume = false.
Hypothesis Hne : ~ Forall (evenly_spaced o) gs.
Hypothesis Hm : Forall (Forall (@moderate prec emax)) gs.
Hypothesis HN : 126 * INR (length grids) * roundoff prec <= 1.

Lemma uneven_core : Forall (good_axis 2) axes /\
  close_to (fun j => tenL (ops1 lin1 axes (map B2R (pt j))) V) (rectilinear_error prec emax (length grids) A).
Proof using All.
  assert (FT : Forall (first_two_increase o) gs).
  { assert (G2 := grids_two). rewrite Forall_forall in *. intros g Hg. specialize (G2 g Hg). specialize (Hi g Hg).
    destruct g as [|a [|b g]]; simpl in G2; try lia. apply (Hi 0%nat 1%nat); auto. }
  assert (RI := call_rect o c obs grids vals o0 Hc Hn).
  destruct (call_uneven o c obs grids vals o0 lin assume atol Hc Hn FT Ha Hne) as (eval & Hs & Hr).
  assert (Hfl : float_rectilinear Hp He c gs vs eval).
  { destruct Hs as [(s & Es & ->)|(m & s & Es & ->)]; [apply float_rectilinear_flat|apply float_rectilinear_recursive]; auto. }
  rewrite <- (map_length nd_data grids) in HN |- *. split.
  - rewrite Forall_forall. intros a Hin. unfold rect_axes in Hin. apply in_map_iff in Hin as (g' & <- & Hg'). apply in_map_iff in Hg' as (g & <- & Hg).
    assert (G2 := grids_two). rewrite Forall_forall in G2, Hi, Hm. split.
    + apply list_axis_inc. apply (increasing_B2R prec emax Hp He); auto. eapply Forall_impl; [|apply Hm; exact Hg]. intros v Hvv. apply Hvv.
    + cbn [npts list_axis]. unfold zlen. rewrite map_length. specialize (G2 g Hg). lia.
  - apply (close_intro eval _ _ Hr). intros j Hj.
    destruct (rect_err prec emax Hp He c gs vs eval (pt j) A Hfl Hi Hm (pt_fin j) (Hx j Hj) Hv HN) as (_ & y & Ey & Fy & By). eauto.
Qed.
Theorem C79_proof_uneven c' dom eval' : multilinear c' (map B2R vs) axes dom eval' -> exists r,
  fst (py_interpn o c obs grids vals "linear" None lin assume false atol) = Ret r /\
  nd_shape r = nd_shape o0 /\ length (nd_data r) = n /\
  forall j, (j < n)%nat -> exists e, eval' (map B2R (pt j)) = Ok e /\ fin (nth j (nd_data r) (fzero o)) /\
    Rabs (B2R (nth j (nd_data r) (fzero o)) - e) <= rectilinear_error prec emax (length grids) A.
Proof using All.
  intros H. destruct (multilinear_value H) as (_ & _ & E'). destruct uneven_core as (_ & r & R1 & R2 & R3 & R4).
  exists r. split; [exact R1|]. split; [exact R2|]. split; [exact R3|]. intros j Hj. destruct (R4 j Hj) as (F & B).
  eexists. split; [apply E'; [apply Hx; exact Hj|eapply multilinear_inside; eauto]|]. split; auto.
Qed.
Theorem C80_proof_uneven f e M h :
  samples_within e axes (map B2R vs) f ->
  (forall k, (k < length axes)%nat -> second_derivative_at_most axes f k (M k)) ->
  (forall k a, nth_error axes k = Some a -> spacing_at_most a (h k)) -> exists r,
  fst (py_interpn o c obs grids vals "linear" None lin assume false atol) = Ret r /\
  nd_shape r = nd_shape o0 /\ length (nd_data r) = n /\
  forall j, (j < n)%nat -> fin (nth j (nd_data r) (fzero o)) /\
    Rabs (B2R (nth j (nd_data r) (fzero o)) - f (map B2R (pt j))) <= rectilinear_error prec emax (length grids) A + e
    + sum_upto (length axes) (fun k => M k * h k ^ 2 / 8).
Proof using All.
  intros Hs HM Hh. destruct uneven_core as (G & r & R1 & R2 & R3 & R4).
  exists r. split; [exact R1|]. split; [exact R2|]. split; [exact R3|]. intros j Hj. destruct (R4 j Hj) as (F & B). split; [exact F|].
  exact (three_errors _ _ _ _ _ _ _ B (lin_near _ _ _ _ _ G (Hx j Hj) Hs) (lin_approx_val_grid _ _ _ _ _ G (Hx j Hj) HM Hh)).
Qed.
End Uneven.
End B.
