(** Products, sums, slices, refinement and cropping in exact arithmetic. *)
From Coq Require Import Reals Lra PeanoNat Bool ZifyBool ZifyNat.
From Verif Require Import Base Ops RInst ModelLinear ModelNearest ModelCubic Spec SpecReal.
From Verif Require Import CoreLemmas MethodChar RTensor R1D RChar Interpolators REval RProofs RProofs2 RProofs3 SpecSplit.
Unset Implicit Arguments.
Open Scope list_scope.
Open Scope R_scope.

(** ** Concatenated grids *)
Lemma lfs_app d1 d2 L1 L2 : lfs d1 L1 -> lfs d2 L2 -> lfs (d1 ++ d2) (L1 ++ L2).
Proof. apply Forall2_app. Qed.

Lemma in_shape_app d1 d2 i j : in_shape d1 i -> in_shape d2 j -> in_shape (d1 ++ d2) (i ++ j).
Proof. apply Forall2_app. Qed.

Lemma tenL_app d1 L1 L2 V : lfs d1 L1 ->
  tenL (L1 ++ L2) V = tenL L1 (fun i => tenL L2 (fun j => V (i ++ j))).
Proof.
  intros H. revert V. induction H as [|d L ds Ls HL HLs IH]; intros V; simpl; auto.
  apply (lf_ext _ _ HL). intros i _. apply (IH (fun idx => V (i :: idx))).
Qed.

Lemma ops1_app op a1 a2 x1 x2 : length x1 = length a1 ->
  ops1 op (a1 ++ a2) (x1 ++ x2) = ops1 op a1 x1 ++ ops1 op a2 x2.
Proof.
  revert x1. induction a1 as [|a a1 IH]; intros [|v x1] L; try discriminate; auto.
  unfold ops1 in *. simpl. f_equal. apply IH. simpl in L. lia.
Qed.

Lemma in_shape_mid d1 d d2 i m j : in_shape d1 i -> (0 <= m < d)%Z -> in_shape d2 j ->
  in_shape (d1 ++ d :: d2) (i ++ m :: j).
Proof. intros H1 H H2. apply Forall2_app; [exact H1|]. constructor; [exact H|exact H2]. Qed.

(** Functionals that reproduce constants. *)
Definition mass1 (L : (Z -> R) -> R) : Prop := forall c, L (fun _ => c) = c.

Lemma tenL_const dims Ls c : lfs dims Ls -> Forall mass1 Ls -> tenL Ls (fun _ => c) = c.
Proof.
  intros H M. induction H as [|d L ds Ls HL HLs IH]; simpl; auto.
  inversion M as [|? ? ML Mr]; subst. rewrite (lf_ext _ (fun _ => c) HL); [apply ML|]. intros i _. apply IH; auto.
Qed.

Lemma tenL_lf dims Ls d L h : lfs dims Ls -> lf d L ->
  tenL Ls (fun i => L (fun j => h j i)) = L (fun j => tenL Ls (h j)).
Proof.
  intros H HL. revert h. induction H as [|e M ds Ls HM HLs IH]; intros h; simpl; auto.
  rewrite <- (lf_swap (fun i j => tenL Ls (fun idx => h j (i :: idx))) HM HL).
  apply (lf_ext _ _ HM). intros i _. apply (IH (fun j idx => h j (i :: idx))).
Qed.

Lemma tenL_tenL d1 L1 d2 L2 V : lfs d1 L1 -> lfs d2 L2 ->
  tenL L1 (fun i => tenL L2 (fun j => V i j)) = tenL L2 (fun j => tenL L1 (fun i => V i j)).
Proof.
  intros H1 H2. revert V. induction H2 as [|d L ds Ls HL HLs IH]; intros V; simpl.
  - reflexivity.
  - rewrite (tenL_lf _ _ _ _ (fun i idx => tenL Ls (fun j => V idx (i :: j))) H1 HL).
    apply (lf_ext _ _ HL). intros i _. apply (IH (fun idx j => V idx (i :: j))).
Qed.

Section Ops.
Variable FP : Z.
Variable op : axis -> R -> (Z -> R) -> R.
Hypothesis Hlf : forall a t, good_axis FP a -> lf (npts a) (op a t).
Hypothesis Hm : forall a t, good_axis FP a -> mass1 (op a t).
Hypothesis Hn : forall a i f, good_axis FP a -> (0 <= i < npts a)%Z -> op a (coord a i) f = f i.

Notation T axes x vals := (tenL (ops1 op axes x) (entry 0 (map npts axes) vals)).

Lemma ops_lfs axes x : length x = length axes -> Forall (good_axis FP) axes -> lfs (map npts axes) (ops1 op axes x).
Proof using All. intros L G. apply ops1_lfs; auto. eapply Forall_impl; [|exact G]. intros a Ga t. apply Hlf; auto. Qed.

Lemma ops_mass axes x : length x = length axes -> Forall (good_axis FP) axes -> Forall mass1 (ops1 op axes x).
Proof using All.
  intros L G. revert x L. induction G as [|a axes Ga G IH]; intros [|v x] L; try discriminate; constructor.
  - apply Hm; auto.
  - apply IH. simpl in L. lia.
Qed.

Lemma T_product a1 a2 x1 x2 u v w : length x1 = length a1 -> length x2 = length a2 ->
  Forall (good_axis FP) a1 -> Forall (good_axis FP) a2 ->
  product_data (map npts a1) (map npts a2) u v w ->
  T (a1 ++ a2) (x1 ++ x2) w = T a1 x1 u * T a2 x2 v.
Proof using All.
  intros L1 L2 G1 G2 P. assert (F1 := ops_lfs a1 x1 L1 G1). assert (F2 := ops_lfs a2 x2 L2 G2).
  rewrite ops1_app by auto. rewrite (tenL_app _ _ _ _ F1), map_app.
  rewrite (tenL_ext _ (fun i => T a2 x2 v * entry 0 (map npts a1) u i) F1).
  { rewrite (tenL_scal _ _ F1). ring. }
  intros i Hi. rewrite (tenL_ext _ (fun j => entry 0 (map npts a1) u i * entry 0 (map npts a2) v j) F2).
  { rewrite (tenL_scal _ _ F2). ring. }
  intros j Hj. apply P; auto.
Qed.

Lemma T_sum a1 a2 x1 x2 u v w : length x1 = length a1 -> length x2 = length a2 ->
  Forall (good_axis FP) a1 -> Forall (good_axis FP) a2 ->
  sum_data (map npts a1) (map npts a2) u v w ->
  T (a1 ++ a2) (x1 ++ x2) w = T a1 x1 u + T a2 x2 v.
Proof using All.
  intros L1 L2 G1 G2 P. assert (F1 := ops_lfs a1 x1 L1 G1). assert (F2 := ops_lfs a2 x2 L2 G2).
  rewrite ops1_app by auto. rewrite (tenL_app _ _ _ _ F1), map_app.
  rewrite (tenL_ext _ (fun i => entry 0 (map npts a1) u i + T a2 x2 v) F1).
  { rewrite (tenL_plus _ (fun _ => T a2 x2 v) F1). f_equal. apply (tenL_const _ _ _ F1). apply ops_mass; auto. }
  intros i Hi. rewrite (tenL_ext _ (fun j => entry 0 (map npts a1) u i + entry 0 (map npts a2) v j) F2).
  { rewrite (tenL_plus (fun _ => entry 0 (map npts a1) u i) _ F2). f_equal.
    apply (tenL_const _ _ _ F2). apply ops_mass; auto. }
  intros j Hj. apply P; auto.
Qed.

Lemma T_slice a1 a a2 x1 x2 m w s : length x1 = length a1 -> length x2 = length a2 ->
  Forall (good_axis FP) a1 -> good_axis FP a -> Forall (good_axis FP) a2 -> (0 <= m < npts a)%Z ->
  slice_data (map npts a1) (npts a) (map npts a2) m w s ->
  T (a1 ++ a :: a2) (x1 ++ coord a m :: x2) w = T (a1 ++ a2) (x1 ++ x2) s.
Proof using All.
  intros L1 L2 G1 Ga G2 Hi P. assert (F1 := ops_lfs a1 x1 L1 G1). assert (F2 := ops_lfs a2 x2 L2 G2).
  rewrite !ops1_app by auto. rewrite !(tenL_app _ _ _ _ F1), !map_app.
  apply (tenL_ext _ _ F1). intros i Hsi.
  change (ops1 op (a :: a2) (coord a m :: x2)) with (op a (coord a m) :: ops1 op a2 x2).
  cbn [tenL]. rewrite Hn by auto. apply (tenL_ext _ _ F2). intros j Hj. symmetry. apply P; auto.
Qed.

(** First along the axes a1, for every node of a2, then along the axes a2. *)
Lemma T_nested a1 a2 x1 x2 w w2 : length x1 = length a1 -> length x2 = length a2 ->
  Forall (good_axis FP) a1 -> Forall (good_axis FP) a2 ->
  (forall j, in_shape (map npts a2) j -> exists u, block_data (map npts a1) (map npts a2) j w u /\
     T a1 x1 u = entry 0 (map npts a2) w2 j) ->
  T (a1 ++ a2) (x1 ++ x2) w = T a2 x2 w2.
Proof using All.
  intros L1 L2 G1 G2 P. assert (F1 := ops_lfs a1 x1 L1 G1). assert (F2 := ops_lfs a2 x2 L2 G2).
  rewrite ops1_app by auto. rewrite (tenL_app _ _ _ _ F1), map_app.
  rewrite (tenL_tenL _ _ _ _ _ F1 F2). apply (tenL_ext _ _ F2). intros j Hj.
  destruct (P j Hj) as (u & B & <-). apply (tenL_ext _ _ F1). intros i Hi. symmetry. apply B; auto.
Qed.
End Ops.

(** ** Refinement *)
Lemma lin1_refine a b x f : good_axis 2 a -> good_axis 2 b -> refines a b ->
  lin1 b x (fun j => lin1 a (coord b j) f) = lin1 a x f.
Proof.
  intros (Ia & Na) (Ib & Nb) Hr.
  destruct (in_cell_ex b Nb x) as (o & Ho). assert (Ho' := Ho). destruct Ho' as (O1 & O2 & O3).
  assert (G : coord b o < coord b (o + 1)) by (apply Ib; lia).
  destruct (in_cell_ex a Na ((coord b o + coord b (o + 1)) / 2)) as (p & P1 & P2 & P3).
  assert (LB : forall i j, (0 <= i <= j)%Z -> (j < npts b)%Z -> coord b i <= coord b j) by (intros i j A B; apply (@axis_le b Ib); auto).
  assert (PL : p = 0%Z \/ ((1 <= o)%Z /\ coord a p <= coord b o)).
  { destruct (Z.eq_dec p 0) as [|Hp]; auto. right. destruct P2 as [|P2]; [lia|].
    destruct (Hr p ltac:(lia)) as (j & J & E). rewrite <- E in *.
    assert (j <= o)%Z. { destruct (Z_lt_le_dec o j); auto. assert (coord b (o + 1) <= coord b j) by (apply LB; lia). lra. }
    split; [lia|]. apply LB; lia. }
  assert (PH : p = (npts a - 2)%Z \/ ((o + 1 < npts b - 1)%Z /\ coord b (o + 1) <= coord a (p + 1))).
  { destruct (Z.eq_dec p (npts a - 2)) as [|Hp]; auto. right. destruct P3 as [|P3]; [lia|].
    destruct (Hr (p + 1)%Z ltac:(lia)) as (j & J & E). rewrite <- E in *.
    assert (o + 1 <= j)%Z. { destruct (Z_lt_le_dec j (o + 1)); auto. assert (coord b j <= coord b o) by (apply LB; lia). lra. }
    split; [lia|]. apply LB; lia. }
  assert (C : forall y, coord b o <= y <= coord b (o + 1) \/ y = x -> in_cell a y p).
  { intros y Hy. split; [exact P1|]. split.
    - destruct PL as [|(K & PL)]; auto. right. destruct Hy as [|Hy]; [lra|]. subst y. destruct O2; [lia|lra].
    - destruct PH as [|(K & PH)]; auto. right. destruct Hy as [|Hy]; [lra|]. subst y. destruct O3; [lia|lra]. }
  rewrite (@lin1_eq b Ib Nb x _ o Ho), (@lin1_eq a Ia Na x f p (C x (or_intror eq_refl))).
  unfold lin_piece at 1. unfold dd at 1.
  rewrite (@lin1_eq a Ia Na (coord b o) f p), (@lin1_eq a Ia Na (coord b (o + 1)) f p) by (apply C; left; lra).
  unfold lin_piece. field. lra.
Qed.

Lemma node_pos_len axes idx : length idx = length axes -> length (node_pos axes idx) = length axes.
Proof. revert idx. induction axes as [|a axes IH]; intros [|i idx] L; simpl in *; auto; try discriminate. Qed.

Lemma lin_lf a t : good_axis 2 a -> lf (npts a) (lin1 a t).
Proof. intros (I & N). apply lin1_lf; auto. Qed.

Lemma lin_mass a t : good_axis 2 a -> mass1 (lin1 a t).
Proof.
  intros (I & N) c. transitivity (c + 0 * t); [|ring].
  rewrite <- (lin1_exact I N t c 0). apply (lf_ext _ _ (lin1_lf I N t)). intros i _. ring.
Qed.

Lemma lin_node a i f : good_axis 2 a -> (0 <= i < npts a)%Z -> lin1 a (coord a i) f = f i.
Proof. intros (I & N). apply lin1_node; auto. Qed.

Lemma cub_lf lin a t : good_axis 4 a -> lf (npts a) (cub1 lin a t).
Proof. intros (I & N). apply cub1_lf; auto. Qed.

Lemma cub_mass lin a t : good_axis 4 a -> mass1 (cub1 lin a t).
Proof.
  intros (I & N) c. transitivity (c + 0 * t); [|ring].
  rewrite <- (cub1_affine I N lin c 0 t). apply (lf_ext _ _ (cub1_lf I N lin t)). intros i _. ring.
Qed.

Lemma cub_node lin a i f : good_axis 4 a -> (0 <= i < npts a)%Z -> cub1 lin a (coord a i) f = f i.
Proof. intros (I & N). apply cub1_node; auto. Qed.

Lemma lin_lfs axes x : length x = length axes -> Forall (good_axis 2) axes -> lfs (map npts axes) (ops1 lin1 axes x).
Proof. apply (ops_lfs 2 lin1 lin_lf lin_mass lin_node). Qed.

Lemma T_refine axes axes' x V : Forall (good_axis 2) axes -> Forall (good_axis 2) axes' ->
  Forall2 refines axes axes' -> length x = length axes ->
  tenL (ops1 lin1 axes' x) (fun idx => tenL (ops1 lin1 axes (node_pos axes' idx)) V) = tenL (ops1 lin1 axes x) V.
Proof.
  intros G G' H. revert G G' x V.
  induction H as [|a b axes axes' Hr H IH]; intros G G' [|t x] V L; try discriminate; [reflexivity|].
  inversion G as [|? ? Ga Gr]; subst. inversion G' as [|? ? Gb Gr']; subst.
  simpl in L. assert (L' : length x = length axes) by lia. assert (LL : length axes = length axes') by (clear - H; induction H; simpl; auto).
  change (ops1 lin1 (b :: axes') (t :: x)) with (lin1 b t :: ops1 lin1 axes' x).
  change (ops1 lin1 (a :: axes) (t :: x)) with (lin1 a t :: ops1 lin1 axes x). cbn [tenL].
  assert (Fb : lf (npts b) (lin1 b t)) by (apply lin1_lf; apply Gb).
  assert (F' : lfs (map npts axes') (ops1 lin1 axes' x)) by (apply lin_lfs; auto; lia).
  rewrite <- (lin1_refine a b t) by auto. apply (lf_ext _ _ Fb). intros i Hi.
  assert (Fa : lf (npts a) (lin1 a (coord b i))) by (apply lin1_lf; apply Ga).
  transitivity (lin1 a (coord b i) (fun k => tenL (ops1 lin1 axes' x)
     (fun idx => tenL (ops1 lin1 axes (node_pos axes' idx)) (fun r => V (k :: r))))).
  - exact (tenL_lf _ _ _ _ (fun k idx => tenL (ops1 lin1 axes (node_pos axes' idx)) (fun r => V (k :: r))) F' Fa).
  - apply (lf_ext _ _ Fa). intros k _. apply (IH Gr Gr' x (fun r => V (k :: r)) L').
Qed.

(** ** Cropping *)
Definition crop_side (m lo : Z) (a b : axis) (x : R) : Prop :=
  (lo = 0%Z \/ coord b m <= x) /\ ((lo + npts b)%Z = npts a \/ x <= coord b (npts b - 1 - m)).

Lemma crop_cell lo a b x o : crop_axis lo a b -> crop_side 0 lo a b x -> in_cell b x o -> in_cell a x (lo + o).
Proof.
  intros (C1 & C2 & C3) (S1 & S2) (O1 & O2 & O3). split; [lia|].
  replace (lo + o + 1)%Z with (lo + (o + 1))%Z by ring. rewrite <- !C3 by lia. split.
  - destruct (Z.eq_dec o 0) as [->|]; [destruct S1; [left; lia|right; auto]|]. destruct O2; [lia|]; right; auto.
  - destruct (Z.eq_dec o (npts b - 2)) as [->|].
    + destruct S2 as [|S2]; [left; lia|]. right. replace (npts b - 2 + 1)%Z with (npts b - 1 - 0)%Z by ring. exact S2.
    + destruct O3; [lia|]; right; auto.
Qed.

Lemma lin1_crop lo a b x f : good_axis 2 a -> good_axis 2 b -> crop_axis lo a b -> crop_side 0 lo a b x ->
  lin1 b x (fun j => f (lo + j)%Z) = lin1 a x f.
Proof.
  intros (Ia & Na) (Ib & Nb) C S. destruct (in_cell_ex b Nb x) as (o & Ho).
  rewrite (@lin1_eq b Ib Nb x _ o Ho), (@lin1_eq a Ia Na x f _ (crop_cell _ _ _ _ _ C S Ho)).
  destruct C as (C1 & C2 & C3). destruct Ho as (O1 & _).
  unfold lin_piece, dd. rewrite !C3 by lia. rewrite !Z.add_assoc. reflexivity.
Qed.

Lemma crop_dd lo a b f i : crop_axis lo a b -> (0 <= i)%Z -> (i + 1 < npts b)%Z ->
  dd (coord b) (fun j => f (lo + j)%Z) i = dd (coord a) f (lo + i).
Proof. intros (C1 & C2 & C3) H1 H2. unfold dd. rewrite !C3 by lia. rewrite !Z.add_assoc. reflexivity. Qed.

Lemma crop_gap lo a b i : crop_axis lo a b -> (0 <= i)%Z -> (i + 1 < npts b)%Z ->
  gap (coord b) i = gap (coord a) (lo + i).
Proof. intros (C1 & C2 & C3) H1 H2. unfold gap. rewrite !C3 by lia. rewrite !Z.add_assoc. reflexivity. Qed.

Lemma crop_mid lo a b f i : crop_axis lo a b -> (0 < i)%Z -> (i + 1 < npts b)%Z ->
  mid_slope (coord b) (fun j => f (lo + j)%Z) i = mid_slope (coord a) f (lo + i).
Proof.
  intros C H1 H2. unfold mid_slope.
  rewrite (crop_dd lo a b f i), (crop_dd lo a b f (i - 1)), (crop_gap lo a b i), (crop_gap lo a b (i - 1)) by (auto; lia).
  replace (lo + (i - 1))%Z with (lo + i - 1)%Z by ring. reflexivity.
Qed.

Lemma crop_slope lo a b f i : crop_axis lo a b -> (4 <= npts b)%Z -> (0 <= i < npts b)%Z ->
  (lo = 0 \/ 1 <= i)%Z -> (lo + npts b = npts a \/ i <= npts b - 2)%Z ->
  slope b (fun j => f (lo + j)%Z) i = slope a f (lo + i).
Proof.
  intros C Nb Hi H1 H2. assert (C' := C). destruct C' as (C1 & C2 & _). unfold slope.
  destruct (Z.eqb_spec i 0) as [->|].
  - assert (lo = 0%Z) by lia. subst lo. rewrite (crop_dd 0 a b f 0), (crop_mid 0 a b f 1) by (auto; lia). reflexivity.
  - destruct (Z.eqb_spec (lo + i) 0); [lia|]. destruct (Z.eqb_spec i (npts b - 1)) as [->|].
    + destruct (Z.eqb_spec (lo + (npts b - 1)) (npts a - 1)); [|lia].
      rewrite (crop_dd lo a b f), (crop_mid lo a b f) by (auto; lia).
      replace (lo + (npts b - 2))%Z with (npts a - 2)%Z by lia. reflexivity.
    + destruct (Z.eqb_spec (lo + i) (npts a - 1)); [lia|]. apply crop_mid; auto; lia.
Qed.

Lemma cub1_crop lin lo a b x f : good_axis 4 a -> good_axis 4 b -> crop_axis lo a b -> crop_side 1 lo a b x ->
  cub1 lin b x (fun j => f (lo + j)%Z) = cub1 lin a x f.
Proof.
  intros (Ia & Na) (Ib & Nb) C S. assert (C' := C). destruct C' as (C1 & C2 & C3).
  assert (LB : forall i j, (0 <= i < j)%Z -> (j < npts b)%Z -> coord b i < coord b j) by exact Ib.
  assert (Hout : (lin = true /\ x < coord b 0) \/ (lin = true /\ coord b (npts b - 1) < x) \/
                 (coord b 0 <= x <= coord b (npts b - 1) \/ lin = false)).
  { destruct lin; auto. destruct (Rlt_le_dec x (coord b 0)); auto.
    destruct (Rlt_le_dec (coord b (npts b - 1)) x); auto. }
  destruct Hout as [(El & Hx)|[(El & Hx)|Hin]].
  - assert (lo = 0%Z). { destruct S as ([|S] & _); auto. assert (coord b 0 < coord b 1) by (apply LB; lia). lra. }
    subst lo. assert (E0 : coord b 0 = coord a 0) by (apply (C3 0%Z); lia).
    rewrite (@cub1_low b Ib Nb lin _ x El), (@cub1_low a Ia Na lin _ x El) by lra.
    rewrite (crop_slope 0 a b f 0) by (auto; lia). rewrite E0. reflexivity.
  - assert (E : (lo + npts b)%Z = npts a). { destruct S as (_ & [|S]); auto.
      assert (coord b (npts b - 1 - 1) < coord b (npts b - 1)) by (apply LB; lia). lra. }
    rewrite (@cub1_high b Ib Nb lin _ x El) by lra.
    assert (Ec : coord b (npts b - 1) = coord a (npts a - 1)) by (rewrite C3 by lia; f_equal; lia).
    rewrite (@cub1_high a Ia Na lin _ x El) by lra.
    rewrite (crop_slope lo a b f (npts b - 1)) by (auto; lia). rewrite Ec.
    replace (lo + (npts b - 1))%Z with (npts a - 1)%Z by lia. reflexivity.
  - assert (Hc : exists o, in_cell b x o /\ (lo = 0 \/ 1 <= o)%Z /\ (lo + npts b = npts a \/ o <= npts b - 3)%Z).
    { destruct (in_cell_ex b ltac:(lia) x) as (o & O1 & O2 & O3). destruct S as (S1 & S2).
      destruct (Z.eq_dec o 0) as [->|N0].
      - destruct S1 as [|S1]; [exists 0%Z; repeat split; auto; lia|]. exists 1%Z.
        destruct O3 as [|O3]; [lia|]. repeat split; try lia; right; auto.
        assert (coord b (0 + 1) < coord b (1 + 1)) by (apply LB; lia). lra.
      - destruct (Z.eq_dec o (npts b - 2)) as [->|N1].
        + destruct S2 as [|S2]; [exists (npts b - 2)%Z; repeat split; auto; lia|]. exists (npts b - 3)%Z.
          destruct O2 as [|O2]; [lia|]. replace (npts b - 1 - 1)%Z with (npts b - 2)%Z in S2 by ring.
          repeat split; try lia; right.
          * assert (coord b (npts b - 3) < coord b (npts b - 2)) by (apply LB; lia). lra.
          * replace (npts b - 3 + 1)%Z with (npts b - 2)%Z by ring. exact S2.
        + exists o. repeat split; auto; lia. }
    destruct Hc as (o & Ho & K1 & K2).
    assert (S0 : crop_side 0 lo a b x).
    { destruct S as (S1 & S2). split; [destruct S1 as [|S1]; [auto|right]|destruct S2 as [|S2]; [auto|right]].
      - assert (coord b 0 < coord b 1) by (apply LB; lia). lra.
      - replace (npts b - 1 - 0)%Z with (npts b - 1)%Z by ring.
        assert (coord b (npts b - 1 - 1) < coord b (npts b - 1)) by (apply LB; lia). lra. }
    assert (Ha := crop_cell _ _ _ _ _ C S0 Ho).
    assert (Hina : coord a 0 <= x <= coord a (npts a - 1) \/ lin = false).
    { destruct Hin as [Hin|]; auto. left. rewrite !C3 in Hin by lia.
      assert (coord a 0 <= coord a (lo + 0)) by (apply (@axis_le a Ia); lia).
      assert (coord a (lo + (npts b - 1)) <= coord a (npts a - 1)) by (apply (@axis_le a Ia); lia). lra. }
    rewrite (@cub1_herm b Ib Nb lin _ x o Ho Hin), (@cub1_herm a Ia Na lin _ x _ Ha Hina).
    destruct Ho as (O1 & _). unfold herm_piece.
    rewrite (crop_slope lo a b f o), (crop_slope lo a b f (o + 1)), (crop_dd lo a b f o), (crop_gap lo a b o) by (auto; lia).
    rewrite (C3 o) by lia. rewrite !Z.add_assoc. reflexivity.
Qed.

Lemma T_crop FP m op : (forall a t, good_axis FP a -> lf (npts a) (op a t)) ->
  (forall lo a b x f, good_axis FP a -> good_axis FP b -> crop_axis lo a b -> crop_side m lo a b x ->
     op b x (fun j => f (lo + j)%Z) = op a x f) ->
  forall axes axes' los x V, Forall (good_axis FP) axes -> Forall (good_axis FP) axes' ->
  crop_grid los axes axes' -> inside_crop m los axes axes' x ->
  tenL (ops1 op axes' x) (fun idx => V (map (fun p => (fst p + snd p)%Z) (combine los idx))) = tenL (ops1 op axes x) V.
Proof.
  intros Hlf H1. induction axes as [|a axes IH]; intros axes' los x V G G' (Ll & La & C) (Lx & S).
  - destruct axes'; [|discriminate]. destruct los; [|discriminate]. destruct x; [|discriminate]. reflexivity.
  - destruct axes' as [|b axes']; [discriminate|]. destruct los as [|lo los]; [discriminate|].
    destruct x as [|t x]; [discriminate|].
    inversion G as [|? ? Ga Gr]; subst. inversion G' as [|? ? Gb Gr']; subst.
    simpl in Ll, La, Lx. assert (C0 := C 0%nat a b eq_refl eq_refl). assert (S0 := S 0%nat a b eq_refl eq_refl).
    change (ops1 op (b :: axes') (t :: x)) with (op b t :: ops1 op axes' x).
    change (ops1 op (a :: axes) (t :: x)) with (op a t :: ops1 op axes x). cbn [tenL].
    rewrite <- (H1 lo a b t (fun i => tenL (ops1 op axes x) (fun r => V (i :: r))) Ga Gb C0 S0).
    apply (lf_ext _ _ (Hlf b t Gb)). intros i _. cbn [combine map fst snd].
    apply (IH axes' los x (fun r => V ((lo + i)%Z :: r)) Gr Gr').
    + split; [lia|]. split; [lia|]. intros k. exact (C (Datatypes.S k)).
    + split; [lia|]. intros k. exact (S (Datatypes.S k)).
Qed.
