(** A missing (NaN) or infinite stored value that is used shows in the result. *)
From Coq Require Import Reals Lia List Bool ZifyBool ZifyNat PeanoNat String.
From Flocq Require Import Core.Core IEEE754.BinarySingleNaN.
From Verif Require Import Base Ops FInst ModelCore ModelLinear ModelCubic ModelOneDim ModelPython Spec SpecOrder SpecIEEE SpecCubicError SpecPython SpecDetect SpecMonotone SpecMissing.
From Verif Require Import CoreLemmas TensorLemmas MethodLemmas SearchLemmas MethodChar GenLemmas GenProofs OrderLemmas OrderProofs FLemmas UtilProofs FProofs FProofs2 FError F1D FCubicReg FCubicRect FPython FPyCubic FSign FMono.
Import ListNotations.
Unset Implicit Arguments.
Open Scope string_scope.
Open Scope list_scope.
Open Scope Z_scope.

Section B.
Variables prec emax : Z.
Context (Hp : Prec_gt_0 prec) (He : Prec_lt_emax prec emax).
Notation fl := (binary_float prec emax).
Notation o := (BOps Hp He).
Notation fin x := (is_finite x = true).

Lemma tens_used (P : fl -> Prop) FP V nd origin n (used : nat -> Z -> Prop) :
  (forall k vs i, (k < n)%nat -> length vs = FP -> (i < FP)%nat -> used k (nth k origin 0 + Z.of_nat i) -> P (nd k vs) -> P (nth i vs (fzero o))) ->
  forall k idx suf, (k <= n)%nat -> length idx = k ->
  (forall j, (j < k)%nat -> used j (nth j idx 0) /\ nth j origin 0 <= nth j idx 0 < nth j origin 0 + Z.of_nat FP) ->
  P (tens FP V nd origin k suf) -> P (V (idx ++ suf)).
Proof using.
  intros H. induction k as [|k IH]; intros idx suf Hk Li Hu Ht.
  - destruct idx; [exact Ht|discriminate Li].
  - destruct (@exists_last _ idx) as (p & z & ->); [intros ->; discriminate Li|]. rewrite app_length in Li. cbn [length] in Li.
    assert (Lp : length p = k) by lia. rewrite <- app_assoc. cbn [app]. apply IH; [lia|lia| |].
    + intros j Hj. specialize (Hu j ltac:(lia)). rewrite app_nth1 in Hu by lia. exact Hu.
    + destruct (Hu k ltac:(lia)) as (U & R). rewrite app_nth2, Lp, Nat.sub_diag in U, R by lia. cbn [nth] in U, R.
      cbn [tens] in Ht. set (i := Z.to_nat (z - nth k origin 0)). assert (Hi : (i < FP)%nat) by (unfold i; lia).
      assert (Ez : nth k origin 0 + Z.of_nat i = z) by (unfold i; lia).
      assert (Q := fun L => H k _ i ltac:(lia) L Hi ltac:(rewrite Ez; exact U) Ht).
      rewrite (nth_map_seq (fun i => tens FP V nd origin k (nth k origin 0 + Z.of_nat i :: suf))) in Q by exact Hi.
      rewrite Ez in Q. apply Q. rewrite map_length, seq_length. reflexivity.
Qed.

Lemma isize_floor (q : fl) z : to_isize o (ffloor o q) = Some z -> z = Zfloor (B2R q) /\ z <= isize_max.
Proof using.
  cbn [to_isize BOps]. unfold B_to_isize. destruct (is_finite (ffloor o q)) eqn:Fl; [|discriminate].
  assert (Vl := @floor_val _ _ Hp He q). set (f := ffloor o q) in *.
  assert (T : Btrunc f = Zfloor (B2R q)).
  { apply eq_IZR. rewrite Btrunc_correct by auto. rewrite Vl.
    unfold round, F2R, scaled_mantissa, cexp, FIX_exp. simpl. rewrite !Rmult_1_r. rewrite Ztrunc_IZR. reflexivity. }
  cbv zeta. rewrite T. destruct (Z.leb_spec isize_min (Zfloor (B2R q))), (Z.leb_spec (Zfloor (B2R q)) isize_max); cbn [andb]; try discriminate.
  intros E. injection E as <-. auto.
Qed.

(** The cells found are the named ones. *)
Lemma rect_named n grids vals x cells : 2 <= n -> rect_wf n (mkRect grids (map zlen grids) vals) -> Forall (increasing_grid o) grids ->
  rectilinear_cells o grids x cells -> forall k, (k < length grids)%nat ->
  n <= zlen (nth k grids []) /\ rect_cell o (nth k grids []) (nth k x (fzero o)) = nth k cells 0.
Proof using.
  intros Hn W HI (Lc & Lx & HC) k Hk. assert (Eg : nth_error grids k = Some (nth k grids [])) by (apply nth_error_nth'; auto).
  assert (B := HC k _ (nth k x (fzero o)) (nth k cells 0) Eg ltac:(apply nth_error_nth'; lia) ltac:(apply nth_error_nth'; lia)).
  rewrite Forall_forall in HI. assert (Ig := HI _ (nth_error_In _ _ Eg)).
  destruct (@rect_bound _ n (mkRect grids (map zlen grids) vals) k ltac:(lia) W Hk) as (B4 & _). cbn [g_grids] in B4. split; [lia|].
  exact (bracketing_unique _ _ Hp He _ _ _ _ Ig (rect_cell_bracket _ _ Hp He _ _ Ig ltac:(lia)) B).
Qed.
Lemma reg_named dims starts steps vals x cells os (s := mkRegular dims starts steps vals) : reg_wf 2 s ->
  regular_cells Hp He dims starts steps x cells -> reg_cells o s x = Ok os ->
  forall k, (k < length dims)%nat -> nth k os 0 = nth k cells 0.
Proof using.
  intros W (Lc & Lx & HC) Os k Hk. destruct W as (_ & W1 & W2 & _). cbn [r_dims r_starts r_steps s] in W1, W2.
  assert (M := @mapM_snoc_nth _ 0%Z _ _ _ Os k Hk). cbv beta in M. cbn [r_dims r_starts r_steps s] in M.
  apply reg_cell_floor in M.
  assert (B := HC k (nth k dims 0) (nth k starts (fzero o)) (nth k steps (fzero o)) (nth k x (fzero o)) (nth k cells 0)
    ltac:(apply nth_error_nth'; lia) ltac:(apply nth_error_nth'; lia) ltac:(apply nth_error_nth'; lia) ltac:(apply nth_error_nth'; lia) ltac:(apply nth_error_nth'; lia)).
  unfold computed_cell in B, M. rewrite <- B in M. exact M.
Qed.
Lemma creg_named c dims starts steps vals x cells os (s := mkRegular dims starts steps vals) : reg_wf 4 s ->
  regular_cells Hp He dims starts steps x cells -> (ovf_checks c = true \/ not_lowest Hp He starts steps x) -> creg_cells o c s x = Ok os ->
  forall k, (k < length dims)%nat -> exists q, 4 <= nth k dims 0 /\ nth k cells 0 = Z.min (Z.max q 0) (nth k dims 0 - 2) /\
     nth k os az = (Z.min (Z.max (q - 1) 0) (nth k dims 0 - 4), creg_sat (nth k dims 0) (q - 1)).
Proof using.
  intros W (Lc & Lx & HC) Hlow Os k Hk. destruct W as (_ & W1 & W2 & W3 & _). cbn [r_dims r_starts r_steps s] in W1, W2, W3.
  set (start := nth k starts (fzero o)). set (h := nth k steps (fzero o)). set (v := nth k x (fzero o)). set (d := nth k dims 0).
  assert (D := Forall_nth_lt 0 W3 Hk). cbv beta in D. fold d in D.
  assert (Es : nth_error starts k = Some start) by (apply nth_error_nth'; lia). assert (Eh : nth_error steps k = Some h) by (apply nth_error_nth'; lia).
  assert (Ev : nth_error x k = Some v) by (apply nth_error_nth'; lia).
  assert (B := HC k d start h v (nth k cells 0) ltac:(apply nth_error_nth'; lia) Es Eh Ev ltac:(apply nth_error_nth'; lia)).
  exists (Zfloor (B2R (fdiv o (fsub o v start) h))). split; [lia|]. split; [exact B|].
  assert (M := @mapM_snoc_nth _ az _ _ _ Os k Hk). cbv beta in M. cbn [r_dims r_starts r_steps s] in M. fold start h v d in M.
  unfold creg_cell in M. assert (T := isize_floor (fdiv o (fsub o v start) h)).
  destruct (to_isize o (ffloor o (fdiv o (fsub o v start) h))) as [z|]; cbn [ok_or bind] in M; [|discriminate M].
  destruct (T z eq_refl) as (T1 & T2). rewrite <- T1.
  unfold isize_sub, isize_res in M. destruct (Z.leb_spec isize_min (z - 1)) as [C|C].
  - destruct (Z.leb_spec (z - 1) isize_max) as [C2|C2]; [|lia]. cbn [andb bind] in M. injection M as <-. reflexivity.
  - cbn [andb] in M. exfalso. destruct Hlow as [Hlow|Hlow].
    + rewrite Hlow in M. discriminate M.
    + assert (Q := Hlow k start h v Es Eh Ev). lia.
Qed.

Section P.
Variable P : fl -> Prop.
Hypothesis Padd : forall a b, P (fadd o a b) -> P a /\ P b.
Hypothesis Psub : forall a b, P (fsub o a b) -> P a /\ P b.
Hypothesis Pmul : forall a b, P (fmul o a b) -> P a /\ P b.
Hypothesis Pdiv : forall a b, P (fdiv o a b) -> P a.
Hypothesis Pneg : forall a, P (fneg o a) -> P a.
Hypothesis Pfma : forall a b d, P (fmuladd o a b d) -> P a /\ P b /\ P d.
Ltac brk := repeat match goal with
  | H : P (fadd o _ _) |- _ => apply Padd in H; destruct H
  | H : P (fsub o _ _) |- _ => apply Psub in H; destruct H
  | H : P (fmul o _ _) |- _ => apply Pmul in H; destruct H
  | H : P (fdiv o _ _) |- _ => apply Pdiv in H
  | H : P (fneg o _) |- _ => apply Pneg in H
  | H : P (fmuladd o _ _ _) |- _ => apply Pfma in H; destruct H as (? & ? & ?) end.

Lemma lin_used c t f0 f1 : P (lin_nd o c t [f0; f1]) -> P f0 /\ P f1.
Proof using All. unfold lin_nd. cbv zeta. intros H. destruct (use_fma c); brk; auto. Qed.
Lemma hermite_used c t y0 dy k0 k1 : P (hermite o c t y0 dy k0 k1) -> P y0 /\ P dy /\ P k0 /\ P k1.
Proof using All. unfold hermite. cbv zeta. intros H. destruct (use_fma c); brk; auto. Qed.
Lemma centered_used c y0 y1 y2 h k : P (centered_diff o c y0 y1 y2 h k) -> P y0 /\ P y1 /\ P y2.
Proof using All. unfold centered_diff. cbv zeta. intros H. destruct (use_fma c); brk; auto. Qed.
Lemma natural_used fma dy k0 : P (natural_k1 o fma dy k0) -> P dy /\ P k0.
Proof using All. unfold natural_k1. cbv zeta. intros H. destruct fma; brk; auto. Qed.
Lemma ext_used fma y1 k1 t : P (linear_ext o fma y1 k1 t) -> P y1 /\ P k1.
Proof using All. unfold linear_ext. intros H. destruct fma; brk; auto. Qed.
Ltac brk4 := repeat (brk; match goal with
  | H : P (hermite o _ _ _ _ _ _) |- _ => apply hermite_used in H; destruct H as (? & ? & ? & ?)
  | H : P (centered_diff o _ _ _ _ _ _) |- _ => apply centered_used in H; destruct H as (? & ? & ?)
  | H : P (natural_k1 o _ _ _) |- _ => apply natural_used in H; destruct H
  | H : P (linear_ext o _ _ _ _) |- _ => apply ext_used in H; destruct H end); brk.

(** The four points a one-dimensional cubic uses. *)
Definition sat_uses (sat : saturation) (i : nat) : Prop :=
  match sat with SatNone => True | InsideLow | OutsideLow => (i <= 2)%nat | InsideHigh | OutsideHigh => (1 <= i)%nat end.
Lemma four v0 v1 v2 v3 sat i : (i < 4)%nat -> sat_uses sat i ->
  (P v1 /\ P v2) -> (match sat with InsideHigh | OutsideHigh => True | _ => P v0 end) -> (match sat with InsideLow | OutsideLow => True | _ => P v3 end) ->
  P (nth i [v0; v1; v2; v3] (fzero o)).
Proof using All.
  intros Hi U (H1 & H2) H0 H3. destruct i as [|[|[|[|i]]]]; try lia; cbn [nth]; auto; destruct sat; simpl in U; auto; lia.
Qed.
Lemma reg_used c fma lin sat t vs i : length vs = 4%nat -> (i < 4)%nat -> sat_uses sat i ->
  P (reg_innerp o c fma lin sat t vs) -> P (nth i vs (fzero o)).
Proof using All.
  intros L Hi U H. destruct vs as [|v0 [|v1 [|v2 [|v3 [|]]]]]; try discriminate L.
  unfold reg_innerp, reg_inner in H. cbv zeta in H.
  destruct sat; try (destruct lin); brk4; apply (four v0 v1 v2 v3 _ i Hi U); auto.
Qed.
Lemma rect_used c fma lin sat x cell vs i : length vs = 4%nat -> length cell = 4%nat -> (i < 4)%nat -> sat_uses sat i ->
  P (rect_innerp o c fma lin sat x cell vs) -> P (nth i vs (fzero o)).
Proof using All.
  intros L Lc Hi U H. destruct vs as [|v0 [|v1 [|v2 [|v3 [|]]]]]; try discriminate L.
  destruct cell as [|g0 [|g1 [|g2 [|g3 [|]]]]]; try discriminate Lc.
  unfold rect_innerp, rect_inner in H. cbv zeta in H.
  destruct sat; try (destruct lin); brk4; apply (four v0 v1 v2 v3 _ i Hi U); auto.
Qed.

Lemma lin_tens c V t origin n idx : length idx = n ->
  (forall j, (j < n)%nat -> nth j origin 0 <= nth j idx 0 <= nth j origin 0 + 1) ->
  P (tens 2 V (fun k => lin_nd o c (t k)) origin n []) -> P (V idx).
Proof using All.
  intros Li Hu H. rewrite <- (app_nil_r idx).
  refine (tens_used P 2 V _ origin n (fun _ _ => True) _ n idx [] (le_n _) Li _ H).
  - clear H Hu. intros k vs i Hk Lv Hi _ H. destruct vs as [|a [|b [|]]]; try discriminate Lv. apply lin_used in H as (Ha & Hb).
    destruct i as [|[|i]]; cbn [nth]; auto; lia.
  - intros j Hj. specialize (Hu j Hj). split; [exact I|lia].
Qed.
Lemma rectilinear_P c grids vals eval x y cells idx : float_rectilinear Hp He c grids vals eval -> Forall (increasing_grid o) grids ->
  rectilinear_cells o grids x cells -> corner cells idx -> eval x = Ok y -> P y -> P (entry (fzero o) (map zlen grids) vals idx).
Proof using All.
  intros Hf HI (Lc & Lx & HC) Hco Ey Hy. destruct (float_rectilinear_inv _ _ _ _ _ _ _ _ Hf) as (W & E). rewrite E in Ey by auto.
  injection Ey as <-. unfold mlc_value in Hy. cbn [g_dims g_vals g_grids] in Hy.
  assert (Li : length idx = length grids) by (rewrite <- (Forall2_len _ _ _ _ _ Hco); auto).
  revert Hy. apply lin_tens; auto. intros j Hj. assert (Q := Forall2_nth_lt _ _ _ _ _ j 0 0 Hco ltac:(rewrite Lc; exact Hj)). cbv beta in Q.
  rewrite rect_cells_nth by exact Hj. cbn [g_grids].
  assert (Eg : nth_error grids j = Some (nth j grids [])) by (apply nth_error_nth'; auto).
  assert (B := HC j _ (nth j x (fzero o)) (nth j cells 0) Eg ltac:(apply nth_error_nth'; lia) ltac:(apply nth_error_nth'; lia)).
  rewrite Forall_forall in HI. assert (Ig := HI _ (nth_error_In _ _ Eg)).
  destruct (@rect_bound _ 2 (mkRect grids (map zlen grids) vals) j ltac:(lia) W Hj) as (B2 & _). cbn [g_grids] in B2.
  rewrite (bracketing_unique _ _ Hp He _ _ _ _ Ig (rect_cell_bracket _ _ Hp He _ _ Ig ltac:(lia)) B). lia.
Qed.
Lemma regular_P c dims starts steps vals eval x y cells idx : float_regular Hp He c dims starts steps vals eval ->
  regular_cells Hp He dims starts steps x cells -> corner cells idx -> eval x = Ok y -> P y -> P (entry (fzero o) dims vals idx).
Proof using All.
  intros Hf (Lc & Lx & HC) Hco Ey Hy. destruct (float_regular_inv _ _ _ _ _ _ _ _ _ _ Hf) as (W & _ & fma & E). rewrite E in Ey by auto.
  destruct (reg_cells o (mkRegular dims starts steps vals) x) as [os| |] eqn:Os; try discriminate Ey. cbn [bind] in Ey.
  injection Ey as <-. unfold mlr_value in Hy. cbn [r_dims r_vals r_starts r_steps] in Hy.
  assert (Li : length idx = length dims) by (rewrite <- (Forall2_len _ _ _ _ _ Hco); auto).
  destruct W as (_ & W1 & W2 & _). cbn [r_dims r_starts r_steps] in W1, W2.
  revert Hy. apply lin_tens; auto. intros j Hj. assert (Q := Forall2_nth_lt _ _ _ _ _ j 0 0 Hco ltac:(rewrite Lc; exact Hj)). cbv beta in Q.
  assert (M := @mapM_snoc_nth _ 0%Z _ _ _ Os j Hj). cbv beta in M. cbn [r_dims r_starts r_steps] in M.
  apply reg_cell_floor in M.
  assert (B := HC j (nth j dims 0) (nth j starts (fzero o)) (nth j steps (fzero o)) (nth j x (fzero o)) (nth j cells 0)
    ltac:(apply nth_error_nth'; lia) ltac:(apply nth_error_nth'; lia) ltac:(apply nth_error_nth'; lia) ltac:(apply nth_error_nth'; lia) ltac:(apply nth_error_nth'; lia)).
  unfold computed_cell in B, M. rewrite <- B in M. lia.
Qed.
(** Cubic: which of the four points loaded are used, in terms of the cell [j]. *)
Lemma crect_uses n pp i : 4 <= n -> 0 <= pp <= n -> let j := Z.min (Z.max (pp - 1) 0) (n - 2) in
  let z := Z.min (Z.max (pp - 2) 0) (n - 4) + i in 0 <= i <= 3 -> j - 1 <= z <= j + 2 -> 0 <= z < n ->
  sat_uses (crect_sat n (pp - 2)) (Z.to_nat i).
Proof using.
  clear. intros Hn Hpp j z Hi Hz Hz2. unfold j, z in *. unfold crect_sat.
  destruct (Z.eqb_spec (pp - 2) (-2)); [simpl; lia|]. destruct (Z.eqb_spec (pp - 2) (-1)); [simpl; lia|].
  destruct (Z.eqb_spec (pp - 2) (n - 2)); [simpl; lia|]. destruct (Z.eqb_spec (pp - 2) (n - 3)); [simpl; lia|]. exact I.
Qed.
Lemma creg_uses d q i : 4 <= d -> let j := Z.min (Z.max q 0) (d - 2) in
  let z := Z.min (Z.max (q - 1) 0) (d - 4) + i in 0 <= i <= 3 -> j - 1 <= z <= j + 2 -> 0 <= z < d ->
  sat_uses (creg_sat d (q - 1)) (Z.to_nat i).
Proof using.
  clear. intros Hn j z Hi Hz Hz2. unfold j, z in *. unfold creg_sat.
  destruct (Z.ltb_spec (q - 1) (-1)); [simpl; lia|]. destruct (Z.eqb_spec (q - 1) (-1)); [simpl; lia|].
  destruct (Z.ltb_spec (d - 3) (q - 1)); [simpl; lia|]. destruct (Z.eqb_spec (q - 1) (d - 3)); [simpl; lia|]. exact I.
Qed.
Lemma cubic_rectilinear_P c lin grids vals eval x y cells idx : float_cubic_rectilinear Hp He c lin grids vals eval -> Forall (increasing_grid o) grids ->
  rectilinear_cells o grids x cells -> around (map zlen grids) cells idx -> eval x = Ok y -> P y -> P (entry (fzero o) (map zlen grids) vals idx).
Proof using All.
  intros Hf HI (Lc & Lx & HC) (Hs & Hco) Ey Hy. destruct (float_cubic_rectilinear_inv _ _ _ _ _ _ _ _ _ Hf) as (W & fma & E). rewrite E in Ey by auto.
  injection Ey as <-. set (s := mkRect grids (map zlen grids) vals) in *. unfold mcc_value in Hy.
  assert (Li : length idx = length grids) by (rewrite <- (Forall2_len _ _ _ _ _ Hco); auto).
  assert (HB := rect_named 4 grids vals x cells ltac:(lia) W HI (conj Lc (conj Lx HC))).
  rewrite <- (app_nil_r idx).
  refine (tens_used P 4 _ _ _ (length grids) (fun k z => 0 <= z < zlen (nth k grids []) /\ nth k cells 0 - 1 <= z <= nth k cells 0 + 2) _
    (length grids) idx [] (le_n _) Li _ Hy).
  - clear Hy. intros k vs i Hk Lv Hi (U1 & U2) H. unfold mcc_nd in H. cbv zeta in H. cbn [g_grids s] in H.
    rewrite nth_map_fst, crect_cells_nth in U1, U2 by exact Hk. cbn [g_grids s] in U1, U2.
    set (g := nth k grids []) in *. set (v := nth k x (fzero o)) in *.
    destruct (HB k Hk) as (D & Ej). fold g v in D, Ej. rewrite <- Ej in U2. unfold rect_cell in U2. cbn [crect_cell fst snd] in U1, U2, H.
    destruct (pp_of_ok o g v) as (_ & R).
    refine (rect_used c fma lin _ v (cell4 o g _) vs i Lv (eq_refl 4%nat) Hi _ H). rewrite <- (Nat2Z.id i).
    apply (crect_uses (zlen g) (pp_of o g v) (Z.of_nat i)); auto; lia.
  - intros j Hj. assert (Q := Forall2_nth_lt _ _ _ _ _ j 0 0 Hco ltac:(rewrite Lc; exact Hj)). cbv beta in Q.
    assert (Q2 := Forall2_nth_lt _ _ _ _ _ j 0 0 Hs ltac:(rewrite map_length; exact Hj)). cbv beta in Q2.
    change (nth j (map zlen grids) 0) with (nth j (map zlen grids) (zlen (@nil fl))) in Q2. rewrite map_nth in Q2.
    rewrite nth_map_fst, crect_cells_nth by exact Hj. cbn [g_grids s crect_cell fst].
    destruct (HB j Hj) as (D & Ej). rewrite <- Ej in *. unfold rect_cell in *.
    destruct (pp_of_ok o (nth j grids []) (nth j x (fzero o))) as (_ & R). split; [split; auto|]; lia.
Qed.
Lemma cubic_regular_P c lin dims starts steps vals eval x y cells idx : float_cubic_regular Hp He c lin dims starts steps vals eval ->
  regular_cells Hp He dims starts steps x cells -> (ovf_checks c = true \/ not_lowest Hp He starts steps x) ->
  around dims cells idx -> eval x = Ok y -> P y -> P (entry (fzero o) dims vals idx).
Proof using All.
  intros Hf (Lc & Lx & HC) Hlow (Hs & Hco) Ey Hy. destruct (float_cubic_regular_inv _ _ _ _ _ _ _ _ _ _ _ Hf) as (W & _ & fma & E). rewrite E in Ey by auto.
  set (s := mkRegular dims starts steps vals) in *.
  destruct (creg_cells o c s x) as [os| |] eqn:Os; try discriminate Ey. cbn [bind] in Ey. injection Ey as <-.
  assert (Li : length idx = length dims) by (rewrite <- (Forall2_len _ _ _ _ _ Hco); auto).
  assert (W' := W). destruct W' as (_ & W1 & W2 & W3 & _). cbn [r_dims r_starts r_steps s] in W1, W2, W3.
  assert (HB := creg_named c dims starts steps vals x cells os W (conj Lc (conj Lx HC)) Hlow Os).
  rewrite <- (app_nil_r idx).
  refine (tens_used P 4 _ _ _ (length dims) (fun k z => 0 <= z < nth k dims 0 /\ nth k cells 0 - 1 <= z <= nth k cells 0 + 2) _
    (length dims) idx [] (le_n _) Li _ Hy).
  - clear Hy. intros k vs i Hk Lv Hi (U1 & U2) H. unfold mcr_nd in H. destruct (HB k Hk) as (q & D & Ej & Eo).
    rewrite nth_map_fst in U1, U2. rewrite Eo in *. rewrite Ej in *. cbn [fst snd] in *.
    refine (reg_used c fma lin _ _ vs i Lv Hi _ H). rewrite <- (Nat2Z.id i).
    apply (creg_uses (nth k dims 0) q (Z.of_nat i)); auto; lia.
  - intros j Hj. assert (Q := Forall2_nth_lt _ _ _ _ _ j 0 0 Hco ltac:(rewrite Lc; exact Hj)). cbv beta in Q.
    assert (Q2 := Forall2_nth_lt _ _ _ _ _ j 0 0 Hs Hj). cbv beta in Q2.
    destruct (HB j Hj) as (q & D & Ej & Eo). rewrite nth_map_fst, Eo. rewrite Ej in *. cbn [fst]. split; [split; auto|]; lia.
Qed.
Lemma line_used c s x : P (line_through o c s x) -> P (sy0 s) /\ P (sy1 s).
Proof using All. unfold line_through. cbv zeta. intros H. destruct (use_fma c); brk; auto. Qed.
End P.

(** Finiteness and not being NaN are such predicates. *)
Lemma fin_ops : (forall a b : fl, fin (fadd o a b) -> fin a /\ fin b) /\ (forall a b : fl, fin (fsub o a b) -> fin a /\ fin b) /\
  (forall a b : fl, fin (fmul o a b) -> fin a /\ fin b) /\ (forall a b : fl, fin (fdiv o a b) -> fin a) /\ (forall a : fl, fin (fneg o a) -> fin a) /\
  (forall a b d : fl, fin (fmuladd o a b d) -> fin a /\ fin b /\ fin d).
Proof using.
  repeat split; intros.
  - apply (add_fin _ _ Hp He a b H).
  - apply (add_fin _ _ Hp He a b H).
  - apply (sub_fin _ _ Hp He a b H).
  - apply (sub_fin _ _ Hp He a b H).
  - apply (mul_fin _ _ Hp He a b H).
  - apply (mul_fin _ _ Hp He a b H).
  - apply (div_fin _ _ Hp He a b H).
  - destruct a; auto.
  - apply (fma_fin _ _ Hp He a b d H).
  - apply (fma_fin _ _ Hp He a b d H).
  - apply (fma_fin _ _ Hp He a b d H).
Qed.
Notation nn a := (a <> (B754_nan : fl)).
Lemma nan_ops : (forall a b : fl, nn (fadd o a b) -> nn a /\ nn b) /\ (forall a b : fl, nn (fsub o a b) -> nn a /\ nn b) /\
  (forall a b : fl, nn (fmul o a b) -> nn a /\ nn b) /\ (forall a b : fl, nn (fdiv o a b) -> nn a) /\ (forall a : fl, nn (fneg o a) -> nn a) /\
  (forall a b d : fl, nn (fmuladd o a b d) -> nn a /\ nn b /\ nn d).
Proof using.
  repeat split; intros; intros ->; apply H.
  - apply nan_add_l.
  - apply nan_add_r.
  - apply nan_sub_l.
  - apply nan_sub_r.
  - apply nan_mul_l.
  - apply nan_mul_r.
  - apply nan_div_l.
  - apply nan_neg.
  - apply nan_fma_1.
  - apply nan_fma_2.
  - apply nan_fma_3.
Qed.
Lemma nan_dec (a : fl) : {a = B754_nan} + {nn a}.
Proof using. destruct a; [right|right|left|right]; congruence. Qed.
(** Both at once. *)
Lemma carries_by (v y : fl) : (fin y -> fin v) -> (nn y -> nn v) -> carries v y.
Proof using. intros H1 H2. split; [exact H1|]. intros E. destruct (nan_dec y) as [C|C]; [exact C|]. exfalso. exact (H2 C E). Qed.

Theorem rectilinear_carries c grids vals eval x y cells idx : float_rectilinear Hp He c grids vals eval -> Forall (increasing_grid o) grids ->
  rectilinear_cells o grids x cells -> corner cells idx -> eval x = Ok y -> carries (entry (fzero o) (map zlen grids) vals idx) y.
Proof using.
  intros H1 H2 H3 H4 H5. destruct fin_ops as (A1 & A2 & A3 & A4 & A5 & A6). destruct nan_ops as (B1 & B2 & B3 & B4 & B5 & B6).
  apply carries_by.
  - exact (rectilinear_P (fun v => fin v) A1 A2 A3 A4 A5 A6 c grids vals eval x y cells idx H1 H2 H3 H4 H5).
  - exact (rectilinear_P (fun v => nn v) B1 B2 B3 B4 B5 B6 c grids vals eval x y cells idx H1 H2 H3 H4 H5).
Qed.
Theorem regular_carries c dims starts steps vals eval x y cells idx : float_regular Hp He c dims starts steps vals eval ->
  regular_cells Hp He dims starts steps x cells -> corner cells idx -> eval x = Ok y -> carries (entry (fzero o) dims vals idx) y.
Proof using.
  intros H1 H3 H4 H5. destruct fin_ops as (A1 & A2 & A3 & A4 & A5 & A6). destruct nan_ops as (B1 & B2 & B3 & B4 & B5 & B6).
  apply carries_by.
  - exact (regular_P (fun v => fin v) A1 A2 A3 A4 A5 A6 c dims starts steps vals eval x y cells idx H1 H3 H4 H5).
  - exact (regular_P (fun v => nn v) B1 B2 B3 B4 B5 B6 c dims starts steps vals eval x y cells idx H1 H3 H4 H5).
Qed.
Theorem cubic_rectilinear_carries c lin grids vals eval x y cells idx : float_cubic_rectilinear Hp He c lin grids vals eval -> Forall (increasing_grid o) grids ->
  rectilinear_cells o grids x cells -> around (map zlen grids) cells idx -> eval x = Ok y -> carries (entry (fzero o) (map zlen grids) vals idx) y.
Proof using.
  intros H1 H2 H3 H4 H5. destruct fin_ops as (A1 & A2 & A3 & A4 & A5 & A6). destruct nan_ops as (B1 & B2 & B3 & B4 & B5 & B6).
  apply carries_by.
  - exact (cubic_rectilinear_P (fun v => fin v) A1 A2 A3 A4 A5 A6 c lin grids vals eval x y cells idx H1 H2 H3 H4 H5).
  - exact (cubic_rectilinear_P (fun v => nn v) B1 B2 B3 B4 B5 B6 c lin grids vals eval x y cells idx H1 H2 H3 H4 H5).
Qed.
Theorem cubic_regular_carries c lin dims starts steps vals eval x y cells idx : float_cubic_regular Hp He c lin dims starts steps vals eval ->
  regular_cells Hp He dims starts steps x cells -> (ovf_checks c = true \/ not_lowest Hp He starts steps x) ->
  around dims cells idx -> eval x = Ok y -> carries (entry (fzero o) dims vals idx) y.
Proof using.
  intros H1 H2 H3 H4 H5. destruct fin_ops as (A1 & A2 & A3 & A4 & A5 & A6). destruct nan_ops as (B1 & B2 & B3 & B4 & B5 & B6).
  apply carries_by.
  - exact (cubic_regular_P (fun v => fin v) A1 A2 A3 A4 A5 A6 c lin dims starts steps vals eval x y cells idx H1 H2 H3 H4 H5).
  - exact (cubic_regular_P (fun v => nn v) B1 B2 B3 B4 B5 B6 c lin dims starts steps vals eval x y cells idx H1 H2 H3 H4 H5).
Qed.

(** One dimension. *)
Lemma line_carries c s x : carries (sy0 s) (line_through o c s x) /\ carries (sy1 s) (line_through o c s x).
Proof using.
  destruct fin_ops as (A1 & A2 & A3 & A4 & A5 & A6). destruct nan_ops as (B1 & B2 & B3 & B4 & B5 & B6).
  split; apply carries_by.
  - intros H. apply (line_used (fun v => fin v) A1 A2 A3 A4 A5 A6 c s x H).
  - intros H. apply (line_used (fun v => nn v) B1 B2 B3 B4 B5 B6 c s x H).
  - intros H. apply (line_used (fun v => fin v) A1 A2 A3 A4 A5 A6 c s x H).
  - intros H. apply (line_used (fun v => nn v) B1 B2 B3 B4 B5 B6 c s x H).
Qed.
Theorem line_rect_carries c grid vals g i y0 y1 x y : zlen vals <= isize_max -> increasing_grid o grid ->
  c1_new grid vals = Ok g -> bracketing_cell o x grid i ->
  nth_error vals (Z.to_nat i) = Some y0 -> nth_error vals (Z.to_nat (i + 1)) = Some y1 ->
  linear1 o c (c1_at o c g) x = Ok y -> carries y0 y /\ carries y1 y.
Proof using.
  intros Hn I Hg B E0 E1 Ey.
  destruct (c1_sample o c grid vals g x (fzero o) (@BOps_transitive _ _ Hp He) I Hn Hg) as (Ez & Hz & B' & e & Es & _).
  rewrite (bracketing_unique _ _ Hp He grid x _ _ I B' B) in Es. rewrite (nth_error_nth _ _ (fzero o) E0), (nth_error_nth _ _ (fzero o) E1) in Es.
  unfold linear1 in Ey. rewrite Es in Ey. cbn [bind] in Ey. injection Ey as <-.
  exact (line_carries c (mkSample _ y0 _ y1 e) x).
Qed.
Theorem line_reg_carries c start h vals g i y0 y1 x y : 2 <= zlen vals <= isize_max ->
  r1_new o c start h vals = Ok g -> computed_cell Hp He start h x (zlen vals) i ->
  nth_error vals (Z.to_nat i) = Some y0 -> nth_error vals (Z.to_nat (i + 1)) = Some y1 ->
  linear1 o c (r1_at o c g) x = Ok y -> carries y0 y /\ carries y1 y.
Proof using.
  intros Hn Hg C E0 E1 Ey.
  unfold r1_new in Hg. rewrite usize_sub_ok in Hg by (unfold isize_max, two64 in *; lia). cbn [bind] in Hg.
  destruct (of_usize_some Hp He (zlen vals - 1)) as (mf & Em). rewrite Em in Hg. cbn [ok_or bind] in Hg. injection Hg as <-.
  assert (Ri : (0 <= i <= zlen vals - 2)%Z) by (unfold computed_cell in C; lia).
  unfold linear1, r1_at, r1_index in Ey. cbn [r1_start r1_stop r1_step r1_vals] in Ey.
  assert (Q := reg_cell_floor prec emax Hp He start h (zlen vals) x). unfold reg_cell in Q.
  destruct (to_isize o (ffloor o (fdiv o (fsub o x start) h))) as [z|]; cbn [ok_or bind] in *; [|discriminate Ey].
  specialize (Q _ eq_refl). unfold computed_cell in C, Q. rewrite <- C in Q. clear C.
  rewrite usize_sub_ok in Ey by (unfold isize_max, two64 in *; lia). cbn [bind] in Ey.
  replace (as_usize (Z.min (Z.max z 0) (as_isize (zlen vals - 2)))) with i in Ey.
  2:{ rewrite as_isize_small by (unfold isize_max in *; lia). rewrite Q. unfold as_usize. symmetry. apply Z.mod_small. unfold two64, isize_max in *. lia. }
  destruct (of_usize_some Hp He i) as (fi & Ei). rewrite Ei in Ey. cbn [ok_or bind] in Ey.
  rewrite (@idx_nth _ vals i (fzero o)) in Ey by lia. cbn [bind] in Ey.
  rewrite usize_add_ok in Ey by (unfold two64, isize_max in *; lia). cbn [bind] in Ey.
  rewrite (@idx_nth _ vals (i + 1)%Z (fzero o)) in Ey by lia. cbn [bind] in Ey.
  rewrite (nth_error_nth _ _ (fzero o) E0), (nth_error_nth _ _ (fzero o) E1) in Ey. injection Ey as <-.
  exact (line_carries c (mkSample _ y0 _ y1 _) x).
Qed.

(** The Python function, grids not evenly spaced. *)
Lemma increase_two gs : Forall (fun g : list fl => (2 <= length g)%nat) gs -> Forall (increasing_grid o) gs -> Forall (first_two_increase o) gs.
Proof using.
  intros G2 Hi. rewrite Forall_forall in *. intros g Hg. specialize (G2 g Hg). specialize (Hi g Hg).
  destruct g as [|a [|b g]]; simpl in G2; try lia. apply (Hi 0%nat 1%nat); auto.
Qed.
Theorem python_linear_carries c obs grids vals o0 lin assume atol :
  let gs := map nd_data grids in let xs := map nd_data obs in
  good_call 2 o0 obs grids vals -> (1 <= length grids <= 8)%nat -> Forall (increasing_grid o) gs ->
  assume = false -> ~ Forall (evenly_spaced o) gs ->
  exists r, fst (py_interpn o c obs grids vals "linear" None lin assume false atol) = Ret r /\
  nd_shape r = nd_shape o0 /\ length (nd_data r) = length (nd_data o0) /\
  forall j y cells idx, nth_error (nd_data r) j = Some y -> rectilinear_cells o gs (point_of (fzero o) xs j) cells -> corner cells idx ->
  carries (entry (fzero o) (map zlen gs) (nd_data vals) idx) y.
Proof using Hp He.
  intros gs xs Hc Hn Hi Ha Hne.
  assert (FT := increase_two gs (proj1 (call_lens o obs grids vals o0 Hc Hn)) Hi).
  assert (RI := call_rect o c obs grids vals o0 Hc Hn).
  destruct (call_uneven o c obs grids vals o0 lin assume atol Hc Hn FT Ha Hne) as (eval & Hs & Hr).
  assert (Hfl : float_rectilinear Hp He c gs (nd_data vals) eval).
  { destruct Hs as [(s & Es & ->)|(k & s & Es & ->)]; [apply float_rectilinear_flat|apply float_rectilinear_recursive]; auto. }
  assert (Lo : length xs = length gs) by (destruct Hc as (_ & Lo & _); unfold xs, gs; rewrite !map_length; exact Lo).
  assert (Lp : forall j, length (point_of (fzero o) xs j) = length gs) by (intros; unfold point_of; rewrite map_length; exact Lo).
  destruct Hr as (r & R1 & R2 & R3 & R4).
  - intros j Hj. destruct (float_rectilinear_inv _ _ _ _ _ _ _ _ Hfl) as (_ & E). rewrite E by apply Lp. eauto.
  - exists r. split; [exact R1|]. split; [exact R2|]. split; [exact R3|]. intros j y cells idx Ey HC Hco.
    assert (Hj : (j < length (nd_data r))%nat) by (apply nth_error_Some; congruence). rewrite R3 in Hj.
    assert (Q := R4 j Hj). rewrite (nth_error_nth _ _ (fzero o) Ey) in Q.
    exact (rectilinear_carries c gs (nd_data vals) eval _ y cells idx Hfl Hi HC Hco Q).
Qed.
Theorem python_cubic_carries c obs grids vals o0 lin assume atol :
  let gs := map nd_data grids in let xs := map nd_data obs in
  good_call 4 o0 obs grids vals -> (1 <= length grids <= 8)%nat -> Forall (increasing_grid o) gs ->
  assume = false -> ~ Forall (evenly_spaced o) gs ->
  exists r, fst (py_interpn o c obs grids vals "cubic" None lin assume false atol) = Ret r /\
  nd_shape r = nd_shape o0 /\ length (nd_data r) = length (nd_data o0) /\
  forall j y cells idx, nth_error (nd_data r) j = Some y -> rectilinear_cells o gs (point_of (fzero o) xs j) cells -> around (map zlen gs) cells idx ->
  carries (entry (fzero o) (map zlen gs) (nd_data vals) idx) y.
Proof using Hp He.
  intros gs xs Hc Hn Hi Ha Hne. assert (Hc2 := good4_2 obs grids vals o0 Hc).
  assert (FT := increase_two gs (proj1 (call_lens o obs grids vals o0 Hc2 Hn)) Hi).
  assert (RI := call_rect o c obs grids vals o0 Hc2 Hn).
  destruct (call_uneven3 o c obs grids vals o0 lin assume atol Hc Hn FT Ha Hne) as (eval & Hs & Hr).
  assert (Hfl : float_cubic_rectilinear Hp He c lin gs (nd_data vals) eval).
  { destruct Hs as [(s & Es & ->)|(k & s & Es & ->)]; [apply float_cubic_rectilinear_flat|apply float_cubic_rectilinear_recursive]; auto. }
  assert (Lo : length xs = length gs) by (destruct Hc as (_ & Lo & _); unfold xs, gs; rewrite !map_length; exact Lo).
  assert (Lp : forall j, length (point_of (fzero o) xs j) = length gs) by (intros; unfold point_of; rewrite map_length; exact Lo).
  destruct Hr as (r & R1 & R2 & R3 & R4).
  - intros j Hj. destruct (float_cubic_rectilinear_inv _ _ _ _ _ _ _ _ _ Hfl) as (_ & fma & E). rewrite E by apply Lp. eauto.
  - exists r. split; [exact R1|]. split; [exact R2|]. split; [exact R3|]. intros j y cells idx Ey HC Hco.
    assert (Hj : (j < length (nd_data r))%nat) by (apply nth_error_Some; congruence). rewrite R3 in Hj.
    assert (Q := R4 j Hj). rewrite (nth_error_nth _ _ (fzero o) Ey) in Q.
    exact (cubic_rectilinear_carries c lin gs (nd_data vals) eval _ y cells idx Hfl Hi HC Hco Q).
Qed.

(** Nothing else matters. *)
Lemma tens_same FP V V' nd origin n (used : nat -> Z -> Prop) :
  (forall k vs vs', (k < n)%nat -> length vs = FP -> length vs' = FP ->
    (forall i, (i < FP)%nat -> used k (nth k origin 0 + Z.of_nat i) -> nth i vs (fzero o) = nth i vs' (fzero o)) -> nd k vs = nd k vs') ->
  forall k suf, (k <= n)%nat ->
  (forall idx, length idx = k -> (forall j, (j < k)%nat -> used j (nth j idx 0) /\ nth j origin 0 <= nth j idx 0 < nth j origin 0 + Z.of_nat FP) ->
    V (idx ++ suf) = V' (idx ++ suf)) ->
  tens FP V nd origin k suf = tens FP V' nd origin k suf.
Proof using.
  intros H. induction k as [|k IH]; intros suf Hk HV.
  - apply (HV []); [reflexivity|]. intros j Hj. lia.
  - cbn [tens]. apply H; try (rewrite map_length, seq_length; reflexivity); [lia|]. intros i Hi U.
    rewrite (nth_map_seq (fun i => tens FP V nd origin k (nth k origin 0 + Z.of_nat i :: suf))) by exact Hi.
    rewrite (nth_map_seq (fun i => tens FP V' nd origin k (nth k origin 0 + Z.of_nat i :: suf))) by exact Hi.
    apply IH; [lia|]. intros idx Li HI. set (z := nth k origin 0 + Z.of_nat i) in *.
    change (idx ++ z :: suf) with (idx ++ [z] ++ suf). rewrite app_assoc. apply HV; [rewrite app_length; simpl; lia|].
    intros j Hj. destruct (Nat.eq_dec j k) as [->|Nj].
    + rewrite app_nth2, Li, Nat.sub_diag by lia. cbn [nth]. split; [exact U|unfold z; lia].
    + rewrite app_nth1 by lia. apply HI. lia.
Qed.
Lemma same_list n (vs vs' : list fl) : length vs = n -> length vs' = n -> (forall i, (i < n)%nat -> nth i vs (fzero o) = nth i vs' (fzero o)) -> vs = vs'.
Proof using. intros L L' H. apply (nth_ext _ _ (fzero o) (fzero o)); [congruence|]. intros i Hi. apply H. lia. Qed.
Lemma reg_same c fma lin sat t vs vs' : length vs = 4%nat -> length vs' = 4%nat ->
  (forall i, (i < 4)%nat -> sat_uses sat i -> nth i vs (fzero o) = nth i vs' (fzero o)) ->
  reg_innerp o c fma lin sat t vs = reg_innerp o c fma lin sat t vs'.
Proof using.
  intros L L' H. destruct vs as [|v0 [|v1 [|v2 [|v3 [|]]]]]; try discriminate L. destruct vs' as [|w0 [|w1 [|w2 [|w3 [|]]]]]; try discriminate L'.
  assert (H0 := H 0%nat ltac:(lia)). assert (H1 := H 1%nat ltac:(lia)). assert (H2 := H 2%nat ltac:(lia)). assert (H3 := H 3%nat ltac:(lia)). cbn [nth] in *.
  unfold reg_innerp, reg_inner. destruct sat; cbn [sat_uses] in *; try rewrite H0 by lia; try rewrite H1 by lia; try rewrite H2 by lia; try rewrite H3 by lia;
    try rewrite H0 by exact I; try rewrite H1 by exact I; try rewrite H2 by exact I; try rewrite H3 by exact I; reflexivity.
Qed.
Lemma rect_same c fma lin sat x cell vs vs' : length cell = 4%nat -> length vs = 4%nat -> length vs' = 4%nat ->
  (forall i, (i < 4)%nat -> sat_uses sat i -> nth i vs (fzero o) = nth i vs' (fzero o)) ->
  rect_innerp o c fma lin sat x cell vs = rect_innerp o c fma lin sat x cell vs'.
Proof using.
  intros Lc L L' H. destruct vs as [|v0 [|v1 [|v2 [|v3 [|]]]]]; try discriminate L. destruct vs' as [|w0 [|w1 [|w2 [|w3 [|]]]]]; try discriminate L'.
  destruct cell as [|g0 [|g1 [|g2 [|g3 [|]]]]]; try discriminate Lc.
  assert (H0 := H 0%nat ltac:(lia)). assert (H1 := H 1%nat ltac:(lia)). assert (H2 := H 2%nat ltac:(lia)). assert (H3 := H 3%nat ltac:(lia)). cbn [nth] in *.
  unfold rect_innerp, rect_inner. destruct sat; cbn [sat_uses] in *; try rewrite H0 by lia; try rewrite H1 by lia; try rewrite H2 by lia; try rewrite H3 by lia;
    try rewrite H0 by exact I; try rewrite H1 by exact I; try rewrite H2 by exact I; try rewrite H3 by exact I; reflexivity.
Qed.

Lemma two_rectilinear_inv c grids vals vals' eval eval' : two_rectilinear Hp He c grids vals vals' eval eval' ->
  let s := mkRect grids (map zlen grids) vals in let s' := mkRect grids (map zlen grids) vals' in
  rect_wf 2 s /\ rect_wf 2 s' /\ forall x, length x = length grids -> eval x = Ok (mlc_value o c s x) /\ eval' x = Ok (mlc_value o c s' x).
Proof using.
  intros [s s' Hi Hi' H H'|m s s' Hi Hi' H H'].
  - destruct (mlc_new_inv _ Hi H) as (W & ->). destruct (mlc_new_inv _ Hi' H') as (W' & ->). split; auto. split; auto. intros x Lx. split; apply mlc_char; auto.
  - destruct (mlcr_new_inv _ _ Hi H) as (W & -> & Hm). destruct (mlcr_new_inv _ _ Hi' H') as (W' & -> & Hm'). split; auto. split; auto. intros x Lx. split; apply mlcr_char; auto.
Qed.
Lemma two_regular_inv c dims starts steps vals vals' eval eval' : two_regular Hp He c dims starts steps vals vals' eval eval' ->
  let s := mkRegular dims starts steps vals in let s' := mkRegular dims starts steps vals' in
  reg_wf 2 s /\ reg_wf 2 s' /\ exists fma, forall x, length x = length dims ->
  eval x = (do os <- reg_cells o s x ; Ok (mlr_value prec emax Hp He fma c s x os)) /\ eval' x = (do os <- reg_cells o s' x ; Ok (mlr_value prec emax Hp He fma c s' x os)).
Proof using.
  intros [s s' Hi Hi' H H'|m s s' Hi Hi' H H'].
  - destruct (mlr_new_inv _ Hi H) as (W & ->). destruct (mlr_new_inv _ Hi' H') as (W' & ->). split; auto. split; auto.
    exists (use_fma c). intros x Lx. split; apply mlr_char; auto; apply usize_converts_B.
  - destruct (mlrr_new_inv _ _ Hi H) as (W & -> & Hm). destruct (mlrr_new_inv _ _ Hi' H') as (W' & -> & Hm'). split; auto. split; auto.
    exists false. intros x Lx. split; apply mlrr_char; auto; apply usize_converts_B.
Qed.
Lemma two_cubic_rectilinear_inv c lin grids vals vals' eval eval' : two_cubic_rectilinear Hp He c lin grids vals vals' eval eval' ->
  let s := mkRect grids (map zlen grids) vals in let s' := mkRect grids (map zlen grids) vals' in
  rect_wf 4 s /\ rect_wf 4 s' /\ exists fma, forall x, length x = length grids -> eval x = Ok (mcc_value o c fma lin s x) /\ eval' x = Ok (mcc_value o c fma lin s' x).
Proof using.
  intros [s s' Hi Hi' H H'|m s s' Hi Hi' H H'].
  - destruct (mcc_new_inv _ _ Hi H) as (W & ->). destruct (mcc_new_inv _ _ Hi' H') as (W' & ->). split; auto. split; auto. exists false. intros x Lx. split; apply mcc_char; auto.
  - destruct (mccr_new_inv _ _ _ Hi H) as (W & -> & Hm). destruct (mccr_new_inv _ _ _ Hi' H') as (W' & -> & Hm'). split; auto. split; auto.
    exists (use_fma c). intros x Lx. split; apply mccr_char; auto.
Qed.
Lemma two_cubic_regular_inv c lin dims starts steps vals vals' eval eval' : two_cubic_regular Hp He c lin dims starts steps vals vals' eval eval' ->
  let s := mkRegular dims starts steps vals in let s' := mkRegular dims starts steps vals' in
  reg_wf 4 s /\ reg_wf 4 s' /\ exists fma, forall x, length x = length dims ->
  eval x = (do os <- creg_cells o c s x ; Ok (tens 4 (entry (fzero o) dims vals) (mcr_nd o c fma lin s x os) (map fst os) (length dims) [])) /\
  eval' x = (do os <- creg_cells o c s' x ; Ok (tens 4 (entry (fzero o) dims vals') (mcr_nd o c fma lin s' x os) (map fst os) (length dims) [])).
Proof using.
  intros [s s' Hi Hi' H H'|m s s' Hi Hi' H H'].
  - destruct (mcr_new_inv o lin Hi H) as (W & ->). destruct (mcr_new_inv o lin Hi' H') as (W' & ->). split; auto. split; auto.
    exists (use_fma c). intros x Lx. split; apply mcr_char; auto; apply usize_converts_B.
  - destruct (mcrr_new_inv o m lin Hi H) as (W & -> & Hm). destruct (mcrr_new_inv o m lin Hi' H') as (W' & -> & Hm'). split; auto. split; auto.
    exists false. intros x Lx. split; apply mcrr_char; auto; apply usize_converts_B.
Qed.

Lemma lin_same c V V' t origin n : 
  (forall idx, length idx = n -> (forall j, (j < n)%nat -> nth j origin 0 <= nth j idx 0 <= nth j origin 0 + 1) -> V idx = V' idx) ->
  tens 2 V (fun k => lin_nd o c (t k)) origin n [] = tens 2 V' (fun k => lin_nd o c (t k)) origin n [].
Proof using.
  intros H. apply (tens_same 2 V V' _ origin n (fun _ _ => True)); [|lia|].
  - intros k vs vs' Hk L L' E. rewrite (same_list 2 vs vs' L L'); [reflexivity|]. intros i Hi. apply E; auto.
  - intros idx Li HI. rewrite app_nil_r. apply H; auto. intros j Hj. specialize (HI j Hj). lia.
Qed.
Lemma corner_nth cells idx : length cells = length idx -> (forall j, (j < length cells)%nat -> nth j cells 0 <= nth j idx 0 <= nth j cells 0 + 1) -> corner cells idx.
Proof using.
  unfold corner. revert idx. induction cells as [|a cells IH]; intros [|i idx] L H; try discriminate L; constructor.
  - exact (H 0%nat ltac:(simpl; lia)).
  - apply IH; [simpl in L; lia|]. intros j Hj. exact (H (S j) ltac:(simpl; lia)).
Qed.
Lemma Forall2_intro (R : Z -> Z -> Prop) l m : length l = length m -> (forall j, (j < length l)%nat -> R (nth j l 0) (nth j m 0)) -> Forall2 R l m.
Proof using.
  revert m. induction l as [|a l IH]; intros [|i m] L H; try discriminate L; constructor.
  - exact (H 0%nat ltac:(simpl; lia)).
  - apply IH; [simpl in L; lia|]. intros j Hj. exact (H (S j) ltac:(simpl; lia)).
Qed.
Theorem rectilinear_only c grids vals vals' eval eval' x cells : two_rectilinear Hp He c grids vals vals' eval eval' -> Forall (increasing_grid o) grids ->
  rectilinear_cells o grids x cells ->
  (forall idx, corner cells idx -> entry (fzero o) (map zlen grids) vals idx = entry (fzero o) (map zlen grids) vals' idx) -> eval x = eval' x.
Proof using.
  intros Hf HI HC Hv. destruct (two_rectilinear_inv _ _ _ _ _ _ Hf) as (W & W' & E). assert (N := rect_named 2 _ _ _ _ ltac:(lia) W HI HC). destruct HC as (Lc & Lx & HC).
  destruct (E x Lx) as (-> & ->). f_equal. unfold mlc_value. cbn [g_dims g_vals g_grids].
  change (rect_cells o {| g_grids := grids; g_dims := map zlen grids; g_vals := vals' |} x) with (rect_cells o {| g_grids := grids; g_dims := map zlen grids; g_vals := vals |} x).
  apply lin_same. intros idx Li H. apply Hv. apply corner_nth; [lia|]. intros j Hj. rewrite Lc in Hj. specialize (H j Hj).
  rewrite rect_cells_nth in H by exact Hj. cbn [g_grids] in H. destruct (N j Hj) as (_ & <-). exact H.
Qed.
Theorem regular_only c dims starts steps vals vals' eval eval' x cells : two_regular Hp He c dims starts steps vals vals' eval eval' ->
  regular_cells Hp He dims starts steps x cells ->
  (forall idx, corner cells idx -> entry (fzero o) dims vals idx = entry (fzero o) dims vals' idx) -> eval x = eval' x.
Proof using.
  intros Hf HC Hv. destruct (two_regular_inv _ _ _ _ _ _ _ _ Hf) as (W & W' & fma & E). assert (N := fun os => reg_named _ _ _ _ _ _ os W HC). destruct HC as (Lc & Lx & HC).
  destruct (E x Lx) as (-> & ->).
  change (reg_cells o {| r_dims := dims; r_starts := starts; r_steps := steps; r_vals := vals' |} x) with (reg_cells o {| r_dims := dims; r_starts := starts; r_steps := steps; r_vals := vals |} x).
  destruct (reg_cells o {| r_dims := dims; r_starts := starts; r_steps := steps; r_vals := vals |} x) as [os| |] eqn:Os; try reflexivity.
  cbn [bind]. f_equal. unfold mlr_value. cbn [r_dims r_vals r_starts r_steps].
  apply lin_same. intros idx Li H. apply Hv. apply corner_nth; [lia|]. intros j Hj. rewrite Lc in Hj. specialize (H j Hj).
  rewrite (N os eq_refl j Hj) in H. exact H.
Qed.
Theorem cubic_rectilinear_only c lin grids vals vals' eval eval' x cells : two_cubic_rectilinear Hp He c lin grids vals vals' eval eval' -> Forall (increasing_grid o) grids ->
  rectilinear_cells o grids x cells ->
  (forall idx, around (map zlen grids) cells idx -> entry (fzero o) (map zlen grids) vals idx = entry (fzero o) (map zlen grids) vals' idx) -> eval x = eval' x.
Proof using.
  intros Hf HI HC Hv. destruct (two_cubic_rectilinear_inv _ _ _ _ _ _ _ Hf) as (W & W' & fma & E). assert (N := rect_named 4 _ _ _ _ ltac:(lia) W HI HC). destruct HC as (Lc & Lx & HC).
  destruct (E x Lx) as (-> & ->). f_equal. unfold mcc_value. cbn [g_dims g_vals g_grids].
  change (crect_cells o {| g_grids := grids; g_dims := map zlen grids; g_vals := vals' |} x) with (crect_cells o {| g_grids := grids; g_dims := map zlen grids; g_vals := vals |} x).
  change (mcc_nd o c fma lin {| g_grids := grids; g_dims := map zlen grids; g_vals := vals' |} x) with (mcc_nd o c fma lin {| g_grids := grids; g_dims := map zlen grids; g_vals := vals |} x).
  set (s := {| g_grids := grids; g_dims := map zlen grids; g_vals := vals |}) in *.
  apply (tens_same 4 _ _ _ _ (length grids) (fun k z => 0 <= z < zlen (nth k grids []) /\ nth k cells 0 - 1 <= z <= nth k cells 0 + 2)); [|lia|].
  - intros k vs vs' Hk L L' H. unfold mcc_nd. cbv zeta. cbn [g_grids s]. set (g := nth k grids []) in *. set (v := nth k x (fzero o)) in *.
    apply rect_same; auto. intros i Hi U. apply H; auto. rewrite nth_map_fst, crect_cells_nth by exact Hk. cbn [g_grids s]. fold g v.
    destruct (N k Hk) as (D & Ej). fold g v in D, Ej. rewrite <- Ej. unfold rect_cell. cbn [crect_cell fst snd] in *.
    destruct (pp_of_ok o g v) as (_ & R). clear - D R U Hi. set (n := zlen g) in *. set (p := pp_of o g v) in *. clearbody n p. unfold crect_sat in U.
    destruct (Z.eqb_spec (p - 2) (-2)); [simpl in U; lia|]. destruct (Z.eqb_spec (p - 2) (-1)); [simpl in U; lia|].
    destruct (Z.eqb_spec (p - 2) (n - 2)); [simpl in U; lia|]. destruct (Z.eqb_spec (p - 2) (n - 3)); [simpl in U; lia|]. lia.
  - intros idx Li H. rewrite app_nil_r. apply Hv. split.
    + apply Forall2_intro; [rewrite map_length; lia|]. rewrite map_length. intros j Hj. destruct (H j Hj) as ((H1 & _) & _).
      change (nth j (map zlen grids) 0) with (nth j (map zlen grids) (zlen (@nil fl))). rewrite map_nth. exact H1.
    + apply Forall2_intro; [lia|]. intros j Hj. rewrite Lc in Hj. apply (H j Hj).
Qed.
Theorem cubic_regular_only c lin dims starts steps vals vals' eval eval' x cells : two_cubic_regular Hp He c lin dims starts steps vals vals' eval eval' ->
  regular_cells Hp He dims starts steps x cells -> (ovf_checks c = true \/ not_lowest Hp He starts steps x) ->
  (forall idx, around dims cells idx -> entry (fzero o) dims vals idx = entry (fzero o) dims vals' idx) -> eval x = eval' x.
Proof using.
  intros Hf HC Hlow Hv. destruct (two_cubic_regular_inv _ _ _ _ _ _ _ _ _ Hf) as (W & W' & fma & E). assert (N := fun os => creg_named c _ _ _ _ _ _ os W HC Hlow). destruct HC as (Lc & Lx & HC).
  destruct (E x Lx) as (-> & ->).
  change (creg_cells o c {| r_dims := dims; r_starts := starts; r_steps := steps; r_vals := vals' |} x) with (creg_cells o c {| r_dims := dims; r_starts := starts; r_steps := steps; r_vals := vals |} x).
  set (s := {| r_dims := dims; r_starts := starts; r_steps := steps; r_vals := vals |}) in *.
  destruct (creg_cells o c s x) as [os| |] eqn:Os; try reflexivity. specialize (N os eq_refl). cbn [bind]. f_equal.
  change (mcr_nd o c fma lin {| r_dims := dims; r_starts := starts; r_steps := steps; r_vals := vals' |} x os) with (mcr_nd o c fma lin s x os).
  apply (tens_same 4 _ _ _ _ (length dims) (fun k z => 0 <= z < nth k dims 0 /\ nth k cells 0 - 1 <= z <= nth k cells 0 + 2)); [|lia|].
  - intros k vs vs' Hk L L' H. unfold mcr_nd. destruct (N k Hk) as (q & D & Ej & Eo).
    apply reg_same; auto. intros i Hi U. apply H; auto. rewrite nth_map_fst, Eo, Ej. rewrite Eo in U. cbn [fst snd] in *.
    clear - D U Hi. set (n := nth k dims 0) in *. clearbody n. unfold creg_sat in U.
    destruct (Z.ltb_spec (q - 1) (-1)); [simpl in U; lia|]. destruct (Z.eqb_spec (q - 1) (-1)); [simpl in U; lia|].
    destruct (Z.ltb_spec (n - 3) (q - 1)); [simpl in U; lia|]. destruct (Z.eqb_spec (q - 1) (n - 3)); [simpl in U; lia|]. lia.
  - intros idx Li H. rewrite app_nil_r. apply Hv. split.
    + apply Forall2_intro; [lia|]. intros j Hj. apply (H j Hj).
    + apply Forall2_intro; [lia|]. intros j Hj. rewrite Lc in Hj. apply (H j Hj).
Qed.
End B.
