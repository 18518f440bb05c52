(** In exact arithmetic the eight multilinear and multicubic evaluators are iterated
    one-dimensional interpolation. *)
From Coq Require Import Reals Lra PeanoNat Bool Sorted ZifyBool ZifyNat.
From Flocq Require Import Core.Raux.
From Verif Require Import Base Ops ModelCore ModelLinear ModelNearest ModelCubic.
From Verif Require Import Spec CoreLemmas TensorLemmas MethodLemmas SearchLemmas MethodChar GenLemmas.
From Verif Require Import GenProofs3.
From Verif Require Import RInst SpecReal RTensor R1D.
Open Scope R_scope.

Definition ax0 : axis := mkAxis 0 (fun _ => 0).

Definition ops1 (op : axis -> R -> (Z -> R) -> R) (axes : list axis) (x : list R) :=
  map (fun p => op (fst p) (snd p)) (combine axes x).

Lemma ops1_length op axes x : length x = length axes -> length (ops1 op axes x) = length axes.
Proof. intros. unfold ops1. rewrite map_length, combine_length. lia. Qed.

Lemma ops1_nth op axes x k : length x = length axes -> (k < length axes)%nat ->
  nth k (ops1 op axes x) (fun _ => 0) = op (nth k axes ax0) (nth k x 0).
Proof. intros. unfold ops1. apply map_combine_nth; auto. Qed.

Lemma ops1_lfs op axes x : length x = length axes ->
  Forall (fun a => forall t, lf (npts a) (op a t)) axes -> lfs (map npts axes) (ops1 op axes x).
Proof.
  intros L H. revert x L. induction H as [|a axes Ha H IH]; intros [|t x] L; try discriminate.
  - constructor.
  - simpl. constructor; [apply Ha|]. apply IH. simpl in L. lia.
Qed.

Lemma reg_axes_length dims starts steps : length starts = length dims -> length steps = length dims ->
  length (reg_axes dims starts steps) = length dims.
Proof.
  revert starts steps. induction dims; intros [|] [|]; simpl; intros; try lia.
  f_equal. apply IHdims; lia.
Qed.

Lemma reg_axes_nth dims starts steps k : length starts = length dims -> length steps = length dims ->
  (k < length dims)%nat ->
  nth k (reg_axes dims starts steps) ax0
  = mkAxis (nth k dims 0%Z) (fun i => nth k starts 0 + nth k steps 0 * IZR i).
Proof.
  revert starts steps k. induction dims; intros [|] [|] k; simpl; intros; try lia.
  destruct k; auto. apply IHdims; lia.
Qed.

Lemma reg_axes_npts dims starts steps : length starts = length dims -> length steps = length dims ->
  map npts (reg_axes dims starts steps) = dims.
Proof.
  revert starts steps. induction dims; intros [|] [|]; simpl; intros; try lia; auto.
  f_equal. apply IHdims; lia.
Qed.

Lemma rect_axes_npts grids : map npts (rect_axes grids) = map zlen grids.
Proof. unfold rect_axes. rewrite map_map. reflexivity. Qed.

Lemma rect_axes_nth grids k : (k < length grids)%nat ->
  nth k (rect_axes grids) ax0 = list_axis (nth k grids []).
Proof.
  intros. unfold rect_axes. rewrite (nth_indep _ ax0 (list_axis [])) by (rewrite map_length; auto).
  apply map_nth.
Qed.

(** ** Axes accepted by the constructors *)
Definition good_axis (FP : Z) (a : axis) : Prop := increasing_axis a /\ (FP <= npts a)%Z.

Lemma reg_axis_inc d a h : 0 < h -> increasing_axis (mkAxis d (fun i => a + h * IZR i)).
Proof.
  intros Hh i j Hij _. cbn [coord]. assert (IZR i < IZR j) by (apply IZR_lt; lia). nra.
Qed.

Lemma sorted_nth g : strictly_increasing g -> forall i j, (i < j < length g)%nat -> nth i g 0 < nth j g 0.
Proof.
  induction 1 as [|a g Hs IH Ha]; simpl; intros i j Hij; [lia|].
  destruct j as [|j]; [lia|]. destruct i as [|i].
  - rewrite Forall_forall in Ha. apply Ha, nth_In. lia.
  - apply IH. lia.
Qed.

Lemma list_axis_inc g : strictly_increasing g -> increasing_axis (list_axis g).
Proof. intros H i j Hi Hj. simpl in *. unfold zlen in Hj. apply sorted_nth; auto. lia. Qed.

Definition grids_ok (grids : list (list R)) : Prop := Forall strictly_increasing grids.

Lemma rect_axes_good FP grids : grids_ok grids -> Forall (fun g => (FP <= zlen g)%Z) grids ->
  Forall (good_axis FP) (rect_axes grids).
Proof.
  intros H1 H2. unfold rect_axes. rewrite Forall_map.
  unfold grids_ok in H1. rewrite Forall_forall in *. intros g Hg. split; simpl; auto.
  apply list_axis_inc; auto.
Qed.

Lemma reg_axes_good FP dims starts steps : length starts = length dims -> length steps = length dims ->
  Forall (fun h => 0 < h) steps -> Forall (fun d => (FP <= d)%Z) dims ->
  Forall (good_axis FP) (reg_axes dims starts steps).
Proof.
  revert starts steps. induction dims; intros [|] [|]; simpl; intros L1 L2 H1 H2; try lia; constructor.
  - inversion H1; inversion H2; subst. split; auto. apply reg_axis_inc; auto.
  - inversion H1; inversion H2; subst. apply IHdims; auto; lia.
Qed.

Lemma Rltb_true a b : Rltb a b = true <-> a < b.
Proof. unfold Rltb. destruct (Rlt_dec a b); split; auto; discriminate || contradiction. Qed.
Lemma Rltb_false a b : Rltb a b = false <-> b <= a.
Proof. unfold Rltb. destruct (Rlt_dec a b); split; intros; try discriminate; try lra; auto. Qed.
Lemma Rleb_true a b : Rleb a b = true <-> a <= b.
Proof. unfold Rleb. destruct (Rle_dec a b); split; auto; discriminate || contradiction. Qed.
Lemma Rleb_false a b : Rleb a b = false <-> b < a.
Proof. unfold Rleb. destruct (Rle_dec a b); split; intros; try discriminate; try lra; auto. Qed.

(** ** Cells in exact arithmetic *)
Lemma R_to_isize_floor q i : R_to_isize (IZR (Zfloor q)) = Some i -> i = Zfloor q.
Proof.
  unfold R_to_isize. destruct (_ && _); [|discriminate]. intros H. inversion H.
  rewrite Ztrunc_IZR. reflexivity.
Qed.

Lemma R_to_isize_fits lo q : (isize_min <= lo)%Z -> IZR lo <= q < IZR (isize_max + 1) ->
  R_to_isize (IZR (Zfloor q)) = Some (Zfloor q) /\ (lo <= Zfloor q)%Z.
Proof.
  intros Hl (H1 & H2). assert (L := Zfloor_lb q).
  assert (Hq : (lo <= Zfloor q)%Z) by (apply Zfloor_lub; auto).
  split; auto. unfold R_to_isize. rewrite Ztrunc_IZR.
  rewrite (proj2 (Rleb_true _ _)) by (apply IZR_le; lia).
  rewrite (proj2 (Rltb_true _ _)) by lra. reflexivity.
Qed.

Lemma floor_bracket start step v i : 0 < step -> i = Zfloor ((v - start) / step) ->
  start + step * IZR i <= v < start + step * IZR (i + 1).
Proof.
  intros Hs ->. assert (L := Zfloor_lb ((v - start) / step)). assert (U := Zfloor_ub ((v - start) / step)).
  set (q := (v - start) / step) in *. assert (E : v = start + step * q) by (unfold q; field; lra).
  rewrite plus_IZR. rewrite E. nra.
Qed.

Lemma grid_mono start step i j : 0 < step -> (i <= j)%Z -> start + step * IZR i <= start + step * IZR j.
Proof. intros H1 H2. apply IZR_le in H2. nra. Qed.

Lemma reg_cell_R start step d v i : 0 < step -> (2 <= d)%Z -> reg_cell ROps start step d v = Ok i ->
  in_cell (mkAxis d (fun i => start + step * IZR i)) v i.
Proof.
  intros Hs Hd H. unfold reg_cell in H. apply bind_ok in H as (q & Hq & H). inversion H; subst i; clear H.
  simpl in Hq. destruct (R_to_isize _) as [q'|] eqn:Eq; [|discriminate]. inversion Hq; subst q'.
  apply R_to_isize_floor in Eq. destruct (floor_bracket _ _ Hs Eq) as (B1 & B2).
  unfold in_cell. cbn [npts coord]. split; [lia|]. split.
  - destruct (Z.eq_dec (Z.min (Z.max q 0) (d - 2)) 0); auto. right.
    eapply Rle_trans; [|apply B1]. apply grid_mono; auto. lia.
  - destruct (Z.eq_dec (Z.min (Z.max q 0) (d - 2)) (d - 2)); auto. right.
    left. eapply Rlt_le_trans; [apply B2|]. apply grid_mono; auto. lia.
Qed.

Lemma pp_of_R g v : strictly_increasing g -> 
  let p := pp_of ROps g v in (0 <= p <= zlen g)%Z /\
  (forall i, (0 <= i < p)%Z -> nth (Z.to_nat i) g 0 < v) /\
  (forall i, (p <= i < zlen g)%Z -> v <= nth (Z.to_nat i) g 0).
Proof.
  intros Hg. unfold pp_of. simpl flt.
  destruct (partition_point_spec (fun x => Rltb x v) g) as (q & E & Hq & Hp).
  rewrite E. cbv zeta.
  assert (PT : prefix_true (fun x => Rltb x v) g).
  { intros i j a b Hij Ha Hb. rewrite !Rltb_true. intros.
    destruct (Nat.eq_dec i j) as [->|]; [congruence|].
    assert (Lj : (j < length g)%nat) by (apply nth_error_Some; congruence).
    assert (nth i g 0 < nth j g 0) by (apply sorted_nth; auto; lia).
    rewrite (nth_error_nth _ _ 0 Ha), (nth_error_nth _ _ 0 Hb) in *. lra. }
  destruct (Hp PT) as (P1 & P2).
  split; [unfold zlen; lia|]. unfold zlen. split; intros i Hi.
  - apply Rltb_true. apply (P1 (Z.to_nat i)); [lia|]. apply nth_error_nth'. lia.
  - apply Rltb_false. apply (P2 (Z.to_nat i)); [lia|]. apply nth_error_nth'. lia.
Qed.

Lemma rect_cell_R g v : strictly_increasing g -> (2 <= zlen g)%Z ->
  in_cell (list_axis g) v (rect_cell ROps g v).
Proof.
  intros Hg Hn. destruct (pp_of_R v Hg) as (P0 & P1 & P2). unfold rect_cell.
  set (p := pp_of ROps g v) in *. unfold in_cell. cbn [npts coord list_axis].
  split; [lia|]. split.
  - destruct (Z.eq_dec (Z.min (Z.max (p - 1) 0) (zlen g - 2)) 0); auto. right. left. apply P1. lia.
  - destruct (Z.eq_dec (Z.min (Z.max (p - 1) 0) (zlen g - 2)) (zlen g - 2)); auto. right. apply P2. lia.
Qed.

(** ** One axis of each evaluator *)
Lemma lin_reg_axis c fma start step d v i f : 0 < step -> (2 <= d)%Z ->
  reg_cell ROps start step d v = Ok i ->
  lin_nd ROps c (reg_dtp ROps fma start step v i) [f i; f (i + 1)%Z]
  = lin1 (mkAxis d (fun i => start + step * IZR i)) v f.
Proof.
  intros Hs Hd H. rewrite (lin1_eq (@reg_axis_inc d start step Hs) Hd f (@reg_cell_R start step d v i Hs Hd H)).
  unfold lin_piece, dd, reg_dtp, uf. simpl. rewrite plus_IZR.
  destruct fma, (use_fma c); field; lra.
Qed.

Lemma lin_rect_axis c g v f : strictly_increasing g -> (2 <= zlen g)%Z ->
  let i := rect_cell ROps g v in
  lin_nd ROps c (rect_dtp ROps g v i) [f i; f (i + 1)%Z] = lin1 (list_axis g) v f.
Proof.
  intros Hg Hn i. pose proof (rect_cell_R v Hg Hn) as H. fold i in H.
  assert (Ha := list_axis_inc Hg).
  rewrite (lin1_eq Ha Hn f H).
  assert (G : 0 < gap (coord (list_axis g)) i) by (apply axis_gap; auto; destruct H; simpl in *; lia).
  unfold gap in G. unfold lin_piece, dd, rect_dtp, gz. simpl in *. 
  destruct (use_fma c); field; lra.
Qed.

(** ** Cubic cells *)
Definition cub_cell_sat (d i : Z) (sat : saturation) (j : Z) : Prop :=
  match sat with
  | SatNone => j = (i + 1)%Z /\ (0 <= i)%Z /\ (i + 4 <= d)%Z
  | InsideLow => i = 0%Z /\ j = 0%Z
  | OutsideLow => i = 0%Z /\ j = (-1)%Z
  | InsideHigh => i = (d - 4)%Z /\ j = (d - 2)%Z
  | OutsideHigh => i = (d - 4)%Z /\ j = (d - 1)%Z
  end.

(** The cell of [v] when the two outer intervals count as cells -1 and d-1. *)
Definition outer_adm (a : axis) (v : R) (j : Z) : Prop := adm (coord a) (-1) (npts a - 1) v j.

Lemma outer_adm_cub lin a v j : (4 <= npts a)%Z -> increasing_axis a -> outer_adm a v j ->
  adm (coord a) (cub_lo lin) (cub_hi lin a) v
    (if lin then j else Z.min (Z.max j 0) (npts a - 2)).
Proof.
  intros Hn Ha (H1 & H2 & H3). unfold cub_lo, cub_hi. destruct lin; [exact (conj H1 (conj H2 H3))|].
  split; [lia|]. split.
  - destruct (Z.eq_dec (Z.min (Z.max j 0) (npts a - 2)) 0); auto. right.
    destruct H2; [lia|]. eapply Rle_trans; [|eassumption]. apply axis_le; auto; lia.
  - destruct (Z.eq_dec (Z.min (Z.max j 0) (npts a - 2)) (npts a - 2)); auto. right.
    destruct H3; [lia|]. eapply Rle_trans; [eassumption|]. apply axis_le; auto; lia.
Qed.

Lemma isize_sub_R c i0 iloc : (isize_min < i0 <= isize_max)%Z -> isize_sub c i0 1 = Ok iloc -> iloc = (i0 - 1)%Z.
Proof. intros H. rewrite isize_sub_ok by lia. intros E. inversion E. reflexivity. Qed.

Lemma creg_cell_R c start step d v i sat : 0 < step -> (4 <= d)%Z ->
  IZR (isize_min + 1) <= (v - start) / step ->
  creg_cell ROps c start step d v = Ok (i, sat) ->
  exists j, cub_cell_sat d i sat j /\ outer_adm (mkAxis d (fun i => start + step * IZR i)) v j.
Proof.
  intros Hs Hd Hlo H. unfold creg_cell in H. apply bind_ok in H as (q & Hq & H).
  simpl in Hq. destruct (R_to_isize _) as [q'|] eqn:Eq; [|discriminate]. inversion Hq; subst q'. clear Hq.
  assert (Eq' := Eq). apply R_to_isize_floor in Eq'.
  assert (Lq : (isize_min + 1 <= q)%Z) by (subst q; apply Zfloor_lub; auto).
  assert (Uq : (q <= isize_max)%Z).
  { unfold R_to_isize in Eq. destruct (Rleb _ _); [|discriminate]. destruct (Rltb _ _) eqn:E; [|discriminate].
    apply Rltb_true, lt_IZR in E. subst q. lia. }
  destruct (floor_bracket _ _ Hs Eq') as (B1 & B2). clear Eq'.
  apply bind_ok in H as (iloc & Hi & H). apply isize_sub_R in Hi; [|lia].
  inversion H; subst i sat; clear H.
  exists (Z.min (Z.max q (-1)) (d - 1)). split.
  - unfold cub_cell_sat, creg_sat. subst iloc.
    destruct (Z.ltb_spec (q - 1) (-1)); [lia|]. destruct (Z.eqb_spec (q - 1) (-1)); [lia|].
    destruct (Z.ltb_spec (d - 3) (q - 1)); [lia|]. destruct (Z.eqb_spec (q - 1) (d - 3)); lia.
  - unfold outer_adm, adm. cbn [npts coord]. split; [lia|]. split.
    + destruct (Z.eq_dec (Z.min (Z.max q (-1)) (d - 1)) (-1)); auto. right.
      eapply Rle_trans; [|apply B1]. apply grid_mono; auto. lia.
    + destruct (Z.eq_dec (Z.min (Z.max q (-1)) (d - 1)) (d - 1)); auto. right.
      left. eapply Rlt_le_trans; [apply B2|]. apply grid_mono; auto. lia.
Qed.

Lemma crect_cell_R g v : strictly_increasing g -> (4 <= zlen g)%Z ->
  exists j, cub_cell_sat (zlen g) (fst (crect_cell ROps g v)) (snd (crect_cell ROps g v)) j
    /\ outer_adm (list_axis g) v j.
Proof.
  intros Hg Hn. destruct (pp_of_R v Hg) as (P0 & P1 & P2). unfold crect_cell.
  set (p := pp_of ROps g v) in *. cbn [fst snd]. exists (p - 1)%Z. split.
  - unfold cub_cell_sat, crect_sat.
    destruct (Z.eqb_spec (p - 2) (-2)); [lia|]. destruct (Z.eqb_spec (p - 2) (-1)); [lia|].
    destruct (Z.eqb_spec (p - 2) (zlen g - 2)); [lia|]. destruct (Z.eqb_spec (p - 2) (zlen g - 3)); lia.
  - unfold outer_adm, adm. cbn [npts coord list_axis]. split; [lia|]. split.
    + destruct (Z.eq_dec (p - 1) (-1)); auto. right. left. apply P1. lia.
    + destruct (Z.eq_dec (p - 1) (zlen g - 1)); auto. right. apply P2. lia.
Qed.

(** Gaps and points around a footprint. *)
Ltac nrm i := 
  replace (i + 1 + 1)%Z with (i + 2)%Z in * by lia;
  replace (i + 2 + 1)%Z with (i + 3)%Z in * by lia;
  replace (i + 1 - 1)%Z with i in * by lia;
  replace (i + 2 - 1)%Z with (i + 1)%Z in * by lia;
  replace (i + 1 + 1)%Z with (i + 2)%Z in * by lia.

Lemma cub_axis_piece (a : axis) lin v i sat j f : good_axis 4 a ->
  cub_cell_sat (npts a) i sat j ->
  forall c fma,
  rect_innerp ROps c fma lin sat v
    [coord a i; coord a (i + 1); coord a (i + 2); coord a (i + 3)]
    [f i; f (i + 1)%Z; f (i + 2)%Z; f (i + 3)%Z]
  = cub_piece lin a f (if lin then j else Z.min (Z.max j 0) (npts a - 2)) v.
Proof.
  intros (Ha & Hn) Hs c fma.
  assert (Hi : (0 <= i)%Z /\ (i + 4 <= npts a)%Z) by (destruct sat; simpl in Hs; lia).
  assert (G0 : 0 < gap (coord a) i) by (apply axis_gap; auto; lia).
  assert (G1 : 0 < gap (coord a) (i + 1)) by (apply axis_gap; auto; lia).
  assert (G2 : 0 < gap (coord a) (i + 2)) by (apply axis_gap; auto; lia).
  unfold gap in G0, G1, G2.
  destruct sat; simpl in Hs.
  - (* SatNone *)
    destruct Hs as (-> & Hs).
    replace (if lin then (i + 1)%Z else Z.min (Z.max (i + 1) 0) (npts a - 2)) with (i + 1)%Z
      by (destruct lin; lia).
    rewrite cub_piece_herm by lia.
    unfold herm_piece, slope. replace (i + 1 =? 0)%Z with false by lia.
    replace (i + 1 =? npts a - 1)%Z with false by lia. replace (i + 1 + 1 =? 0)%Z with false by lia.
    replace (i + 1 + 1 =? npts a - 1)%Z with false by lia.
    unfold mid_slope, dd, gap. nrm i.
    unfold rect_innerp; simpl. unfold hermite, centered_diff, natural_k1, linear_ext; simpl.
    destruct (use_fma c); field; lra.
  - (* InsideLow *)
    destruct Hs as (-> & ->).
    replace (if lin then 0%Z else Z.min (Z.max 0 0) (npts a - 2)) with 0%Z by (destruct lin; lia).
    rewrite cub_piece_herm by lia. rewrite herm_low by auto.
    unfold low_parabola, dd. simpl Z.add in *.
    unfold rect_innerp; simpl. unfold hermite, centered_diff, natural_k1, linear_ext; simpl.
    destruct (use_fma c), fma; field; lra.
  - (* OutsideLow *)
    destruct Hs as (-> & ->). unfold rect_innerp. destruct lin.
    + unfold cub_piece. simpl andb. cbv iota. unfold slope. replace (0 =? 0)%Z with true by lia.
      unfold mid_slope, dd, gap. simpl Z.add in *. simpl Z.sub. simpl Z.add.
      simpl. unfold hermite, centered_diff, natural_k1, linear_ext; simpl.
      destruct (use_fma c), fma; field; lra.
    + replace (Z.min (Z.max (-1) 0) (npts a - 2)) with 0%Z by lia.
      rewrite cub_piece_herm by lia. rewrite herm_low by auto.
      unfold low_parabola, dd. simpl Z.add in *.
      simpl. unfold hermite, centered_diff, natural_k1, linear_ext; simpl.
      destruct (use_fma c), fma; field; lra.
  - (* InsideHigh *)
    destruct Hs as (Ei & ->).
    replace (if lin then (npts a - 2)%Z else Z.min (Z.max (npts a - 2) 0) (npts a - 2)) with (npts a - 2)%Z by (destruct lin; lia).
    rewrite cub_piece_herm by lia. rewrite herm_high by auto.
    unfold high_parabola, dd.
    replace (npts a - 2)%Z with (i + 2)%Z in * by lia. replace (npts a - 1)%Z with (i + 3)%Z in * by lia.
    replace (npts a - 3)%Z with (i + 1)%Z in * by lia. nrm i.
    unfold rect_innerp; simpl. unfold hermite, centered_diff, natural_k1, linear_ext; simpl.
    destruct (use_fma c), fma; field; lra.
  - (* OutsideHigh *)
    destruct Hs as (Ei & ->). unfold rect_innerp. destruct lin.
    + unfold cub_piece. replace (npts a - 1 =? -1)%Z with false by lia. rewrite Z.eqb_refl. simpl andb. cbv iota.
      unfold slope. replace (npts a - 1 =? 0)%Z with false by lia. rewrite Z.eqb_refl.
      unfold mid_slope, dd, gap.
      replace (npts a - 2)%Z with (i + 2)%Z in * by lia. replace (npts a - 1)%Z with (i + 3)%Z in * by lia.
      nrm i.
      simpl. unfold hermite, centered_diff, natural_k1, linear_ext; simpl.
      destruct (use_fma c), fma; field; lra.
    + replace (Z.min (Z.max (npts a - 1) 0) (npts a - 2)) with (npts a - 2)%Z by lia.
      rewrite cub_piece_herm by lia. rewrite herm_high by auto.
      unfold high_parabola, dd.
      replace (npts a - 2)%Z with (i + 2)%Z in * by lia. replace (npts a - 1)%Z with (i + 3)%Z in * by lia.
      replace (npts a - 3)%Z with (i + 1)%Z in * by lia. nrm i.
      simpl. unfold hermite, centered_diff, natural_k1, linear_ext; simpl.
      destruct (use_fma c), fma; field; lra.
Qed.

Lemma cub_axis (a : axis) lin v i sat j f : good_axis 4 a ->
  cub_cell_sat (npts a) i sat j -> outer_adm a v j ->
  forall c fma,
  rect_innerp ROps c fma lin sat v
    [coord a i; coord a (i + 1); coord a (i + 2); coord a (i + 3)]
    [f i; f (i + 1)%Z; f (i + 2)%Z; f (i + 3)%Z] = cub1 lin a v f.
Proof.
  intros Ga Hs Hj c fma. assert (Ga' := Ga). destruct Ga' as (Ha & Hn).
  rewrite (cub1_eq Ha Hn lin f (outer_adm_cub lin Hn Ha Hj)). apply cub_axis_piece; auto.
Qed.

(** On equally spaced points the regular formula is the rectilinear one. *)
Lemma reg_rect_inner c fma fma' lin sat start step v i vs : 0 < step -> length vs = 4%nat ->
  reg_innerp ROps c fma lin sat (creg_dtp ROps start step v i) vs
  = rect_innerp ROps c fma' lin sat v
      [start + step * IZR i; start + step * IZR (i + 1); start + step * IZR (i + 2); start + step * IZR (i + 3)] vs.
Proof.
  intros Hs Hv. destruct vs as [|v0 [|v1 [|v2 [|v3 [|]]]]]; simpl in Hv; try lia.
  unfold reg_innerp, rect_innerp, creg_dtp, uf. simpl. rewrite !plus_IZR.
  unfold hermite, centered_diff, natural_k1, linear_ext; simpl.
  destruct sat, lin, (use_fma c), fma, fma'; field; lra.
Qed.

Lemma cub_reg_axis c fma lin start step d v i sat f : 0 < step -> (4 <= d)%Z ->
  IZR (isize_min + 1) <= (v - start) / step ->
  creg_cell ROps c start step d v = Ok (i, sat) ->
  reg_innerp ROps c fma lin sat (creg_dtp ROps start step v i)
    [f i; f (i + 1)%Z; f (i + 2)%Z; f (i + 3)%Z]
  = cub1 lin (mkAxis d (fun i => start + step * IZR i)) v f.
Proof.
  intros Hs Hd Hl H. destruct (creg_cell_R _ Hs Hd Hl H) as (j & H1 & H2).
  rewrite (@reg_rect_inner c fma fma) by auto.
  apply (@cub_axis (mkAxis d (fun i => start + step * IZR i)) lin v i sat j f); auto.
  split; auto. apply reg_axis_inc; auto.
Qed.

Lemma cub_rect_axis c fma lin g v f : strictly_increasing g -> (4 <= zlen g)%Z ->
  let p := crect_cell ROps g v in
  rect_innerp ROps c fma lin (snd p) v (cell4 ROps g (fst p))
    [f (fst p); f (fst p + 1)%Z; f (fst p + 2)%Z; f (fst p + 3)%Z]
  = cub1 lin (list_axis g) v f.
Proof.
  intros Hg Hn p. destruct (crect_cell_R v Hg Hn) as (j & H1 & H2).
  apply (@cub_axis (list_axis g) lin v (fst p) (snd p) j f); auto.
  split; auto. apply list_axis_inc; auto.
Qed.
