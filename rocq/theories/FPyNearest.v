(** The Python function interpn in floating point, method "nearest": which node's value is
    returned, and the distance of the result from a function with bounded slopes. *)
From Coq Require Import Reals Lra Lia List Bool ZifyBool ZifyNat PeanoNat String.
From Flocq Require Import Core.Core IEEE754.BinarySingleNaN.
From Verif Require Import Base Ops FInst ModelCore ModelLinear ModelNearest ModelPython Spec SpecOrder SpecIEEE SpecError SpecPython.
From Verif Require Import CoreLemmas MethodLemmas MethodChar GenLemmas GenProofs GenProofs2 GenProofs3 FLemmas FProofs FProofs2 FError FError2.
From Verif Require Import RInst SpecReal RTensor R1D RChar Interpolators REval RProofs SpecApprox Approx1D Approx Shape FApprox.
From Verif Require Import SpecExtrap SpecReach SpecMoved Moved SpecDetect FDetect UtilProofs PyProofs FPython FNearest FNearestAny.
Import ListNotations.
Unset Implicit Arguments.
Open Scope list_scope.
Open Scope string_scope.

(** ** The call, for any number type *)
Section Call.
Open Scope Z_scope.
Context {F : Type} (o : Ops F).
Variables (c : cfg) (obs grids : list (ndarray F)) (vals o0 : ndarray F) (lin assume : bool) (atol : F).
Notation gs := (map nd_data grids).
Notation os := (map nd_data obs).
Notation vs := (nd_data vals).
Notation n := (length (nd_data o0)).
Notation zeros := (repeat (fzero o) (length (nd_data o0))).
Notation dims := (map zlen gs).
Notation starts := (firsts (fzero o) gs).
Notation steps := (spacings o (fzero o) gs).
Hypothesis Hc : good_call 2 o0 obs grids vals.
Hypothesis Hn : (1 <= length grids <= 6)%nat.

Lemma le_8 : (1 <= length grids <= 8)%nat.
Proof using Hn. lia. Qed.

Definition returned0 (eval : list F -> outcome F) : Prop := exists r,
  fst (py_interpn o c obs grids vals "nearest" None lin assume false atol) = Ret r /\
  nd_shape r = nd_shape o0 /\ length (nd_data r) = n /\
  forall j, (j < n)%nat -> eval (point_of (fzero o) os j) = Ok (nth j (nd_data r) (fzero o)).

Lemma returned0_intro eval r : fst (py_interpn o c obs grids vals "nearest" None lin assume false atol) = python_result (nd_shape o0) r ->
  batch_spec (fzero o) eval os zeros (fst r) (snd r) ->
  (forall j, (j < n)%nat -> exists v, eval (point_of (fzero o) os j) = Ok v) -> returned0 eval.
Proof using.
  intros Hr Hb Ht. destruct (batch_total (fzero o) eval os zeros r Hb) as (data & Er & Ld & Hd).
  - intros j Hj. rewrite repeat_length in Hj. auto.
  - rewrite Er in Hr. simpl in Hr. rewrite repeat_length in *. exists (mkNd (nd_shape o0) data). rewrite Hr. simpl. auto.
Qed.

Lemma call_even0 : Forall (fun h => flt o (fzero o) h = true) steps -> assume = true \/ Forall (evenly_spaced o) gs ->
  exists s, nr_new o c dims starts steps vs = Ok s /\
    ((forall j, (j < n)%nat -> exists v, nr_interp_one o c s (point_of (fzero o) os j) = Ok v) -> returned0 (nr_interp_one o c s)).
Proof using o Hc Hn.
  intros Hs Ha. destruct (call_lens o obs grids vals o0 Hc le_8) as (G & L & M & D & P & P2 & Li).
  destruct Hc as (Ho & Lo & _ & G2 & _).
  assert (Ld : length dims = length grids) by (rewrite !map_length; reflexivity).
  assert (Lst : length starts = length dims) by (unfold firsts; rewrite !map_length; reflexivity).
  assert (Lsp : length steps = length dims) by (unfold spacings; rewrite !map_length; reflexivity).
  assert (Los : length os = length dims) by (rewrite Ld, map_length; exact Lo).
  assert (E := proj1 (proj2 (dispatch_regular o c obs grids vals o0 lin assume atol Ho ltac:(lia) G2 Ha))).
  assert (N' : nr_new o c dims starts steps vs = Ok (mkRegular dims starts steps vs)) by (eapply accept3; [apply new_checks_mlr; auto; lia|..]; auto).
  eexists. split; [exact N'|]. intros Ht. eapply returned0_intro; [rewrite E; reflexivity| |exact Ht].
  eapply (interpn_batch_nr o c); eauto. rewrite Ld. lia.
Qed.

Lemma call_uneven0 : Forall (first_two_increase o) gs -> assume = false -> ~ Forall (evenly_spaced o) gs ->
  exists s, nc_new o c gs vs = Ok s /\
    ((forall j, (j < n)%nat -> exists v, nc_interp_one o c s (point_of (fzero o) os j) = Ok v) -> returned0 (nc_interp_one o c s)).
Proof using o Hc Hn.
  intros Hs Ha Hne. destruct (call_lens o obs grids vals o0 Hc le_8) as (G & L & M & D & P & P2 & Li).
  destruct Hc as (Ho & Lo & _ & G2 & _).
  assert (Lg : length gs = length grids) by (rewrite !map_length; reflexivity).
  assert (Los : length os = length gs) by (rewrite Lg, map_length; exact Lo).
  assert (EZ : Forall (fun g : list F => 2 <= zlen g) gs) by (rewrite Forall_map in D; exact D).
  assert (E := proj1 (proj2 (dispatch_rectilinear o c obs grids vals o0 lin assume atol Ho ltac:(lia) G2 Ha Hne ltac:(lia)))).
  assert (N' : nc_new o c gs vs = Ok (mkRect gs dims vs)) by (eapply accept3; [apply new_checks_mlc; auto; lia|..]; auto).
  eexists. split; [exact N'|]. intros Ht. eapply returned0_intro; [rewrite E; reflexivity| |exact Ht].
  eapply (interpn_batch_nc o c); eauto; rewrite ?Lg; lia.
Qed.
End Call.

(** ** IEEE floats *)
Section B.
Open Scope R_scope.
Variables prec emax : Z.
Context (Hp : Prec_gt_0 prec) (He : Prec_lt_emax prec emax).
Notation fl := (binary_float prec emax).
Notation o := (BOps Hp He).
Notation fin x := (is_finite x = true).
Notation u := (roundoff prec).
Notation step g := (first_step prec emax Hp He g).
Variables (c : cfg) (obs grids : list (ndarray fl)) (vals o0 : ndarray fl) (lin assume : bool) (atol : fl).
Notation gs := (map nd_data grids).
Notation os := (map nd_data obs).
Notation vs := (nd_data vals).
Notation n := (length (nd_data o0)).
Notation axes := (rect_axes (map (map B2R) gs)).
Notation pt j := (point_of (fzero o) os j).
Hypothesis Hc : good_call 2 o0 obs grids vals.
Hypothesis Hn : (1 <= length grids <= 6)%nat.
Hypothesis Hi : Forall (increasing_grid o) gs.

(** The value returned for point j is that of node [idx], and [near j idx] holds. *)
Definition chosen (near : nat -> list Z -> Prop) : Prop := exists r,
  fst (py_interpn o c obs grids vals "nearest" None lin assume false atol) = Ret r /\
  nd_shape r = nd_shape o0 /\ length (nd_data r) = n /\
  forall j, (j < n)%nat -> exists idx, in_shape (map npts axes) idx /\
    nth j (nd_data r) (fzero o) = entry (fzero o) (map npts axes) vs idx /\ near j idx.

Lemma chosen_intro eval near : ((forall j, (j < n)%nat -> exists v, eval (pt j) = Ok v) -> returned0 o c obs grids vals o0 lin assume atol eval) ->
  (forall j, (j < n)%nat -> exists idx, in_shape (map npts axes) idx /\ eval (pt j) = Ok (entry (fzero o) (map npts axes) vs idx) /\ near j idx) ->
  chosen near.
Proof using.
  intros H HT. destruct H as (r & R1 & R2 & R3 & R4).
  - intros j Hj. destruct (HT j Hj) as (idx & _ & Ey & _). eauto.
  - exists r. split; [exact R1|]. split; [exact R2|]. split; [exact R3|]. intros j Hj.
    destruct (HT j Hj) as (idx & Hs & Ey & Q). exists idx. split; [exact Hs|]. split; [|exact Q].
    rewrite (R4 j Hj) in Ey. exact (ok_same _ _ Ey).
Qed.
Lemma grids_two0 : Forall (fun g => (2 <= length g)%nat) gs.
Proof using Hp He Hc Hn. apply (call_lens o obs grids vals o0 Hc (le_8 grids Hn)). Qed.
Lemma pt_len j : length (pt j) = length gs.
Proof using Hc. clear Hn. destruct Hc as (_ & L & _). unfold point_of. rewrite !map_length. exact L. Qed.

Lemma slopes_error f e L d (near : nat -> list Z -> Prop) : Forall (good_axis 2) axes ->
  (forall j, (j < n)%nat -> SpecReal.inside_grid axes (map B2R (pt j))) -> samples_within e axes (map B2R vs) f ->
  (forall k, (k < length axes)%nat -> slope_at_most axes f k (L k)) ->
  (forall j idx, (j < n)%nat -> near j idx -> forall k a, nth_error axes k = Some a -> Rabs (coord a (nth k idx 0%Z) - nth k (map B2R (pt j)) 0) <= d k) ->
  chosen near -> exists r,
  fst (py_interpn o c obs grids vals "nearest" None lin assume false atol) = Ret r /\
  nd_shape r = nd_shape o0 /\ length (nd_data r) = n /\
  forall j, (j < n)%nat -> Rabs (B2R (nth j (nd_data r) (fzero o)) - f (map B2R (pt j))) <= e + sum_upto (length axes) (fun k => L k * d k).
Proof using.
  intros G Hx Hs HL Hd (r & R1 & R2 & R3 & R4). exists r. split; [exact R1|]. split; [exact R2|]. split; [exact R3|].
  intros j Hj. destruct (R4 j Hj) as (idx & Hsh & -> & Q).
  eapply (nearby_value _ _ idx); eauto. symmetry. apply entry_real.
Qed.

Section Even.
Variable kappa : R.
Notation eps := (u * kappa).
Hypothesis Hev : Forall (evenly_spaced o) gs.
Hypothesis Hw : Forall (grid_within prec emax Hp He kappa) gs.
Hypothesis HN : 525 * eps <= 1.
Hypothesis Hprec : (prec <= 64)%Z.
Hypothesis Hx : forall j, (j < n)%nat -> point_within prec emax kappa (map (fun g => step g) gs) (pt j).

Lemma grid_k k g : nth_error gs k = Some g ->
  (2 <= length g)%nat /\ increasing_grid o g /\ evenly_spaced o g /\ grid_within prec emax Hp He kappa g.
Proof using Hc Hn Hi Hev Hw.
  intros Hk. apply nth_error_In in Hk. assert (W := grids_two0). rewrite Forall_forall in W, Hi, Hev, Hw. auto.
Qed.
Lemma steps_pos0 : Forall (fun h => flt o (fzero o) h = true) (spacings o (fzero o) gs).
Proof using Hc Hn Hi Hev Hw HN.
  assert (G2 := grids_two0). unfold spacings. rewrite Forall_map. rewrite Forall_forall in *. intros g Hg.
  assert (P := h_pos prec emax Hp He g kappa (G2 g Hg) (Hi g Hg) (Hev g Hg) (Hw g Hg) HN).
  destruct (Hw g Hg) as (Ff & _). apply ltb_fin; auto.
Qed.
Definition near_even j idx := forall k a, nth_error axes k = Some a ->
  nearest_up_to (23 * eps * B2R (step (nth k gs []))) a (nth k (map B2R (pt j)) 0) (nth k idx 0%Z).

Theorem C84_proof_even : chosen near_even.
Proof using All.
  destruct (call_even0 o c obs grids vals o0 lin assume atol Hc Hn steps_pos0 (or_intror Hev)) as (s & Es & Hr).
  apply (chosen_intro _ _ Hr). intros j Hj.
  assert (RI := call_reg o c obs grids vals o0 Hc (le_8 grids Hn)).
  destruct (nearest_regular_any prec emax Hp He c _ _ _ vs s (pt j) (25 / 24 * kappa) RI Es) as (idx & Hsh & E & K).
  - intros k s' h d Es' Eh Ed. unfold firsts in Es'. unfold spacings in Eh. rewrite nth_error_map in Es', Eh, Ed.
    destruct (nth_error gs k) as [g|] eqn:Eg; [|discriminate]. simpl in Es', Eh, Ed. injection Es' as <-. injection Eh as <-. injection Ed as <-.
    destruct (grid_k k g Eg) as (G1 & G2 & G3 & G4). exact (axis_ok prec emax Hp He g kappa G1 G2 G3 G4 HN).
  - rewrite map_length. apply pt_len.
  - intros k h v Eh Ev. destruct (Hx j Hj k h v Eh Ev) as (Fv & Bv). split; [exact Fv|].
    unfold spacings in Eh. rewrite nth_error_map in Eh. destruct (nth_error gs k) as [g|] eqn:Eg; [|discriminate]. simpl in Eh. injection Eh as <-.
    destruct (grid_k k g Eg) as (G1 & G2 & G3 & G4). assert (P := h_pos prec emax Hp He g kappa G1 G2 G3 G4 HN).
    assert (K0 := kappa_pos prec emax Hp He g kappa G1 G2 G3 G4 HN).
    change (Rabs (B2R v) <= kappa * B2R (step g)) in Bv. change (Rabs (B2R v) <= 25 / 24 * kappa * B2R (step g)).
    assert (0 <= kappa * B2R (step g)) by (apply Rmult_le_pos; lra). lra.
  - lra.
  - exact Hprec.
  - rewrite reg_map in Hsh, E, K.
    assert (NP : map npts (map (fun g => mkAxis (zlen g) (fun i => B2R (nth 0 g (fzero o)) + B2R (step g) * IZR i)) gs) = map npts axes).
    { rewrite rect_map, !map_map. apply map_ext. intros g. cbn [npts list_axis]. unfold zlen. rewrite map_length. reflexivity. }
    rewrite NP in Hsh, E. exists idx. split; [exact Hsh|]. split; [exact E|]. intros k a Hk.
    destruct (nth_error gs k) as [g|] eqn:Eg.
    2:{ exfalso. apply nth_error_None in Eg. assert (Q : (k < length axes)%nat) by (apply nth_error_Some; rewrite Hk; discriminate).
        unfold rect_axes in Q. rewrite !map_length in *. lia. }
    rewrite rect_map, nth_error_map, Eg in Hk. simpl in Hk. injection Hk as <-.
    destruct (grid_k k g Eg) as (G1 & G2 & G3 & G4). assert (P := h_pos prec emax Hp He g kappa G1 G2 G3 G4 HN).
    assert (K0 := kappa_pos prec emax Hp He g kappa G1 G2 G3 G4 HN).
    destruct (moved_axis prec emax Hp He g kappa G1 G2 G3 G4 HN) as (M1 & M2).
    destruct (K k _ (map_nth_error _ k gs Eg)) as (Rk & Qk).
    rewrite (nth_error_nth gs k [] Eg).
    assert (ES : nth k (spacings o (fzero o) gs) (fzero o) = step g).
    { apply nth_error_nth. unfold spacings. rewrite nth_error_map, Eg. reflexivity. }
    rewrite ES in Qk. cbn [npts] in Rk.
    assert (NG : npts (list_axis (map B2R g)) = zlen g) by (cbn [npts list_axis]; unfold zlen; rewrite map_length; reflexivity).
    rewrite NG in M2. split; [rewrite NG; exact Rk|]. intros i Hi'. rewrite NG in Hi'.
    assert (N1 := M2 _ Rk). assert (N2 := M2 _ Hi'). specialize (Qk i Hi'). cbn [coord] in *.
    set (w := B2R (step g)) in *. set (xx := nth k (map B2R (pt j)) 0) in *.
    assert (U := bpow_gt_0 radix2 (- prec)). assert (E0 : 0 <= eps * w) by (apply Rmult_le_pos; [apply Rmult_le_pos; unfold roundoff; lra|lra]).
    set (p := coord (list_axis (map B2R g)) (nth k idx 0%Z)) in *. set (q := coord (list_axis (map B2R g)) i) in *.
    set (p' := B2R (nth 0 g (fzero o)) + w * IZR (nth k idx 0%Z)) in *. set (q' := B2R (nth 0 g (fzero o)) + w * IZR i) in *.
    assert (T1 : Rabs (xx - p) <= Rabs (xx - p') + Rabs (p - p')).
    { replace (xx - p) with ((xx - p') + - (p - p')) by ring. eapply Rle_trans; [apply Rabs_triang|]. rewrite Rabs_Ropp. lra. }
    assert (T2 : Rabs (xx - q') <= Rabs (xx - q) + Rabs (q - q')).
    { replace (xx - q') with ((xx - q) + (q - q')) by ring. apply Rabs_triang. }
    replace (16 * (roundoff prec * (25 / 24 * kappa)) * w) with (50 / 3 * (eps * w)) in Qk by field.
    replace (3 * (roundoff prec * kappa) * w) with (3 * (eps * w)) in N1, N2 by ring. lra.
Qed.
Lemma good_even : Forall (good_axis 2) axes.
Proof using Hc Hn Hi Hev Hw HN.
  rewrite rect_map, Forall_map, Forall_forall. intros g Hg. apply In_nth_error in Hg as (k & E).
  destruct (grid_k k g E) as (G1 & G2 & G3 & G4). exact (ga_good prec emax Hp He g kappa G1 G2 G3 G4 HN).
Qed.
Theorem C85_proof_even f e L h : (forall j, (j < n)%nat -> SpecReal.inside_grid axes (map B2R (pt j))) ->
  samples_within e axes (map B2R vs) f ->
  (forall k, (k < length axes)%nat -> slope_at_most axes f k (L k)) ->
  (forall k a, nth_error axes k = Some a -> spacing_at_most a (h k)) -> exists r,
  fst (py_interpn o c obs grids vals "nearest" None lin assume false atol) = Ret r /\
  nd_shape r = nd_shape o0 /\ length (nd_data r) = n /\
  forall j, (j < n)%nat -> Rabs (B2R (nth j (nd_data r) (fzero o)) - f (map B2R (pt j)))
    <= e + sum_upto (length axes) (fun k => L k * (h k / 2 + 23 * eps * B2R (step (nth k gs [])))).
Proof using All.
  intros Hin Hs HL Hh. apply (slopes_error f e L (fun k => h k / 2 + 23 * eps * B2R (step (nth k gs []))) near_even); auto using good_even, C84_proof_even.
  intros j idx Hj Q k a Hk. destruct (Q k a Hk) as (Rk & Qk).
  replace (h k / 2) with (1 * (h k / 2)) by ring.
  apply (near_distance a _ _ (h k) 1); auto; try lra.
  - exact (good_nth _ good_even Hk).
  - apply (proj2 (Hin j Hj) k a Hk).
  - intros i Hi'. specialize (Qk i Hi'). lra.
Qed.
End Even.

Section Uneven.
Hypothesis Ha : assume = false.
Hypothesis Hne : ~ Forall (evenly_spaced o) gs.
Hypothesis Hm : Forall (Forall (@moderate prec emax)) gs.
Hypothesis Hu : 64 * u <= 1.
Hypothesis Fx : Forall (Forall (fun v => fin v)) os.
Definition near_uneven j idx := forall k a, nth_error axes k = Some a ->
  nearest_up_to_factor (1 + 8 * u) a (nth k (map B2R (pt j)) 0) (nth k idx 0%Z).

Theorem C84_proof_uneven : chosen near_uneven.
Proof using All.
  assert (FT : Forall (first_two_increase o) gs).
  { assert (G2 := grids_two0). rewrite Forall_forall in *. intros g Hg. specialize (G2 g Hg). specialize (Hi g Hg).
    destruct g as [|a [|b g]]; simpl in G2; try lia. apply (Hi 0%nat 1%nat); auto. }
  assert (RI := call_rect o c obs grids vals o0 Hc (le_8 grids Hn)).
  destruct (call_uneven0 o c obs grids vals o0 lin assume atol Hc Hn FT Ha Hne) as (s & Es & Hr).
  apply (chosen_intro _ _ Hr). intros j Hj.
  apply (FNearest.nearest_rectilinear prec emax Hp He c gs vs s (pt j) RI Es Hi Hm (pt_len j)); auto. apply (pt_fin prec emax Hp He obs Fx).
Qed.
Lemma good_uneven : Forall (good_axis 2) axes.
Proof using All.
  rewrite Forall_forall. intros a Hin. unfold rect_axes in Hin. apply in_map_iff in Hin as (g' & <- & Hg'). apply in_map_iff in Hg' as (g & <- & Hg).
  assert (G2 := grids_two0). rewrite Forall_forall in G2, Hi, Hm. split.
  - apply list_axis_inc. apply (increasing_B2R prec emax Hp He); auto. eapply Forall_impl; [|apply Hm; exact Hg]. intros v Hvv. apply Hvv.
  - cbn [npts list_axis]. unfold zlen. rewrite map_length. specialize (G2 g Hg). lia.
Qed.
Theorem C85_proof_uneven f e L h : (forall j, (j < n)%nat -> SpecReal.inside_grid axes (map B2R (pt j))) ->
  samples_within e axes (map B2R vs) f ->
  (forall k, (k < length axes)%nat -> slope_at_most axes f k (L k)) ->
  (forall k a, nth_error axes k = Some a -> spacing_at_most a (h k)) -> exists r,
  fst (py_interpn o c obs grids vals "nearest" None lin assume false atol) = Ret r /\
  nd_shape r = nd_shape o0 /\ length (nd_data r) = n /\
  forall j, (j < n)%nat -> Rabs (B2R (nth j (nd_data r) (fzero o)) - f (map B2R (pt j)))
    <= e + sum_upto (length axes) (fun k => L k * ((1 / 2 + 4 * u) * h k)).
Proof using All.
  intros Hin Hs HL Hh. apply (slopes_error f e L (fun k => (1 / 2 + 4 * u) * h k) near_uneven); auto using good_uneven, C84_proof_uneven.
  intros j idx Hj Q k a Hk. destruct (Q k a Hk) as (Rk & Qk).
  replace ((1 / 2 + 4 * u) * h k) with ((1 + 8 * u) * (h k / 2) + 0) by field.
  apply (near_distance a _ _ (h k) (1 + 8 * u) 0); auto.
  - unfold roundoff. assert (U := u_pos prec). lra.
  - exact (good_nth _ good_uneven Hk).
  - apply (proj2 (Hin j Hj) k a Hk).
  - intros i Hi'. specialize (Qk i Hi'). lra.
Qed.
End Uneven.
End B.
