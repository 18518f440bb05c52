(** Proofs about the IEEE instances: constant data and grid nodes. *)
From Coq Require Import Reals Lra Lia List Bool ZifyBool ZifyNat PeanoNat.
From Flocq Require Import Core.Core Relative Plus_error IEEE754.BinarySingleNaN.
From Verif Require Import Base Ops FInst ModelCore ModelLinear ModelNearest ModelCubic ModelOneDim Spec SpecOrder SpecIEEE.
From Verif Require Import CoreLemmas TensorLemmas MethodLemmas SearchLemmas MethodChar GenLemmas GenProofs OrderLemmas OrderProofs FLemmas UtilProofs FProofs.
Import ListNotations.
Unset Implicit Arguments.
Open Scope list_scope.
Open Scope R_scope.

Section B.
Variables prec emax : Z.
Context (Hp : Prec_gt_0 prec) (He : Prec_lt_emax prec emax).
Notation fl := (binary_float prec emax).
Notation o := (BOps Hp He).
Notation emin := (3 - emax - prec)%Z.
Notation fin x := (is_finite x = true).
Notation rnd := (rnd prec emax).
Notation fexp := (FLT_exp emin prec).
Notation small v := (@moderate prec emax v).

(** Operations that do not overflow. *)
Lemma sub_ok (x y : fl) : fin x -> fin y -> Rabs (rnd (B2R x - B2R y)) < bpow radix2 emax ->
  fin (fsub o x y) /\ B2R (fsub o x y) = rnd (B2R x - B2R y).
Proof. intros Fx Fy H. destruct (sub_spec Hp He x y Fx Fy) as [|(_ & C)]; auto. lra. Qed.
Lemma add_ok (x y : fl) : fin x -> fin y -> Rabs (rnd (B2R x + B2R y)) < bpow radix2 emax ->
  fin (fadd o x y) /\ B2R (fadd o x y) = rnd (B2R x + B2R y).
Proof. intros Fx Fy H. destruct (add_spec Hp He x y Fx Fy) as [|(_ & C)]; auto. lra. Qed.
Lemma mul_ok (x y : fl) : fin x -> fin y -> Rabs (rnd (B2R x * B2R y)) < bpow radix2 emax ->
  fin (fmul o x y) /\ B2R (fmul o x y) = rnd (B2R x * B2R y).
Proof. intros Fx Fy H. destruct (mul_spec Hp He x y Fx Fy) as [|(_ & C)]; auto. lra. Qed.
Lemma div_ok (x y : fl) : fin x -> B2R y <> 0 -> Rabs (rnd (B2R x / B2R y)) < bpow radix2 emax ->
  fin (fdiv o x y) /\ B2R (fdiv o x y) = rnd (B2R x / B2R y).
Proof. intros Fx Fy H. destruct (div_spec Hp He x y Fx Fy) as [|(_ & C)]; auto. lra. Qed.
Lemma fma_ok (x y z : fl) : fin x -> fin y -> fin z -> Rabs (rnd (B2R x * B2R y + B2R z)) < bpow radix2 emax ->
  fin (fmuladd o x y z) /\ B2R (fmuladd o x y z) = rnd (B2R x * B2R y + B2R z).
Proof.
  intros Fx Fy Fz H. assert (C := Bfma_correct prec emax Hp He mode_NE x y z Fx Fy Fz). cbv zeta in C.
  change (round radix2 (SpecFloat.fexp prec emax) (round_mode mode_NE) (B2R x * B2R y + B2R z)) with (rnd (B2R x * B2R y + B2R z)) in C.
  rewrite Rlt_bool_true in C by auto. destruct C as (C1 & C2 & _). auto.
Qed.

Lemma fl_lt (x : fl) : Rabs (B2R x) < bpow radix2 emax.
Proof. apply abs_B2R_lt_emax. Qed.

(** A result that is exactly the value of some float does not overflow and is exact. *)
Lemma exact_val r (v : fl) : r = B2R v -> Rabs (rnd r) < bpow radix2 emax /\ rnd r = r.
Proof. intros ->. rewrite rnd_id by auto. split; auto. apply fl_lt. Qed.
Lemma zero_val : Rabs (rnd 0) < bpow radix2 emax.
Proof. rewrite rnd_0 by auto. rewrite Rabs_R0. apply bpow_gt_0. Qed.

Lemma sub_exact (x y z : fl) : fin x -> fin y -> B2R x - B2R y = B2R z ->
  fin (fsub o x y) /\ B2R (fsub o x y) = B2R x - B2R y.
Proof. intros Fx Fy H. destruct (exact_val _ z H) as (A & B). destruct (sub_ok x y Fx Fy A) as (F & V). rewrite B in V. auto. Qed.
Lemma add_exact (x y z : fl) : fin x -> fin y -> B2R x + B2R y = B2R z ->
  fin (fadd o x y) /\ B2R (fadd o x y) = B2R x + B2R y.
Proof. intros Fx Fy H. destruct (exact_val _ z H) as (A & B). destruct (add_ok x y Fx Fy A) as (F & V). rewrite B in V. auto. Qed.
Lemma mul_exact (x y z : fl) : fin x -> fin y -> B2R x * B2R y = B2R z ->
  fin (fmul o x y) /\ B2R (fmul o x y) = B2R x * B2R y.
Proof. intros Fx Fy H. destruct (exact_val _ z H) as (A & B). destruct (mul_ok x y Fx Fy A) as (F & V). rewrite B in V. auto. Qed.
Lemma div_exact (x y z : fl) : fin x -> B2R y <> 0 -> B2R x / B2R y = B2R z ->
  fin (fdiv o x y) /\ B2R (fdiv o x y) = B2R x / B2R y.
Proof. intros Fx Fy H. destruct (exact_val _ z H) as (A & B). destruct (div_ok x y Fx Fy A) as (F & V). rewrite B in V. auto. Qed.
Lemma fma_exact (x y z w : fl) : fin x -> fin y -> fin z -> B2R x * B2R y + B2R z = B2R w ->
  fin (fmuladd o x y z) /\ B2R (fmuladd o x y z) = B2R x * B2R y + B2R z.
Proof. intros Fx Fy Fz H. destruct (exact_val _ w H) as (A & B). destruct (fma_ok x y z Fx Fy Fz A) as (F & V). rewrite B in V. auto. Qed.

(** A node of the linear formula whose exact value and difference are representable. *)
Lemma lin_nd_exact c (t a b p w : fl) : fin t -> fin a -> fin (fsub o b a) ->
  B2R t * B2R (fsub o b a) = B2R p -> B2R a + B2R p = B2R w ->
  is_real (lin_nd o c t [a; b]) (B2R w).
Proof.
  intros Ft Fa Fd Ep Ew. unfold lin_nd. cbv zeta. destruct (use_fma c).
  - destruct (fma_exact t (fsub o b a) a w Ft Fd Fa ltac:(lra)) as (F & V). split; auto. lra.
  - destruct (mul_exact t (fsub o b a) p Ft Fd Ep) as (F & V).
    destruct (add_exact a (fmul o t (fsub o b a)) w Fa F ltac:(lra)) as (F' & V'). split; auto. lra.
Qed.

Lemma lin_nd_const c (t : fl) vs r : fin t -> length vs = 2%nat -> Forall (fun v => is_real v r) vs ->
  is_real (lin_nd o c t vs) r.
Proof.
  intros Ft Lv H. destruct vs as [|a [|b [|]]]; simpl in Lv; try lia.
  apply Forall_cons_iff in H as ((Fa & Va) & H). apply Forall_cons_iff in H as ((Fb & Vb) & _).
  assert (Z : B2R (fzero o) = 0) by reflexivity.
  destruct (sub_exact b a (fzero o) Fb Fa ltac:(lra)) as (Fd & Vd).
  rewrite <- Va. apply lin_nd_exact with (p := fzero o); auto; rewrite ?Vd, ?Z; try lra.
  replace (B2R b - B2R a) with 0 by lra. ring.
Qed.

Lemma rect_cell_bracket (g : list fl) x : increasing_grid o g -> (2 <= zlen g)%Z ->
  bracketing_cell o x g (rect_cell o g x).
Proof.
  intros I Hg. assert (P := @increasing_prefix _ o g x (BOps_transitive Hp He) I).
  destruct (@search_spec _ o g x P) as (E & _).
  assert (Er : rect_cell o g x = clipped_cell o x g).
  { unfold rect_cell, pp_of. rewrite E. reflexivity. }
  rewrite Er. apply clipped_bracketing; auto.
Qed.

Lemma nth_error_nth_some A (l : list A) n d : (n < length l)%nat -> nth_error l n = Some (nth n l d).
Proof. intros. apply nth_error_nth'. auto. Qed.

Lemma rect_position (g : list fl) x : increasing_grid o g -> (2 <= zlen g)%Z -> rect_position_finite Hp He g x ->
  fin (rect_dtp o g x (rect_cell o g x)).
Proof.
  intros I Hg H. assert (B := rect_cell_bracket g x I Hg). assert (R := proj1 B).
  assert (L : Z.of_nat (length g) = zlen g) by reflexivity.
  unfold rect_dtp, gz. eapply H; [exact B| |]; apply nth_error_nth_some; lia.
Qed.

Lemma Forall2_nth_lt A B (P : A -> B -> Prop) la lb k da db : Forall2 P la lb -> (k < length la)%nat ->
  P (nth k la da) (nth k lb db).
Proof.
  intros H. revert k. induction H as [|a b la lb Hab H IH]; simpl; intros [|k] Hk; try lia; auto. apply IH. lia.
Qed.

Theorem C34_proof_rectilinear c grids vals eval x r : float_rectilinear Hp He c grids vals eval ->
  length x = length grids -> Forall (increasing_grid o) grids ->
  Forall2 (rect_position_finite Hp He) grids x -> Forall (fun v => is_real v r) vals ->
  exists v, eval x = Ok v /\ is_real v r.
Proof.
  intros H Lx I P C. destruct (float_rectilinear_inv _ _ _ _ _ _ _ _ H) as (W & E). rewrite E by auto.
  eexists. split; [reflexivity|]. unfold mlc_value. destruct (rect_wf_dims W) as (L & _). rewrite <- L.
  assert (T := tens_inv prec emax 2 (entry (fzero o) (g_dims (mkRect grids (map zlen grids) vals)) vals)).
  apply T with (P := fun _ v => is_real v r).
  - apply rect_cells_foot; auto.
  - intros s Hs. rewrite Forall_forall in C. apply C. apply entry_in; auto. apply W.
  - intros k vs Hk Lv Hvs. apply lin_nd_const; auto.
    assert (Hk' : (k < length grids)%nat) by (rewrite L in Hk; exact Hk).
    apply rect_position.
    + apply (Forall_nth_lt [] I); auto.
    + destruct W as (_ & _ & D & _). apply (Forall_nth_lt [] D); auto.
    + eapply Forall2_nth_lt; eauto.
Qed.

Theorem C34_proof_regular c dims starts steps vals eval x r v : float_regular Hp He c dims starts steps vals eval ->
  length x = length dims ->
  (forall k start h d xk, nth_error starts k = Some start -> nth_error steps k = Some h -> nth_error dims k = Some d ->
     nth_error x k = Some xk -> reg_position_finite Hp He start h d xk) ->
  Forall (fun v => is_real v r) vals -> eval x = Ok v -> is_real v r.
Proof.
  intros H Lx P C Ev. destruct (float_regular_inv _ _ _ _ _ _ _ _ _ _ H) as (W & _ & fma & E). rewrite E in Ev by auto.
  apply bind_ok in Ev as (os & Eos & Ev). inversion Ev; subst v; clear Ev. unfold mlr_value.
  assert (T := tens_inv prec emax 2 (entry (fzero o) (r_dims (mkRegular dims starts steps vals)) vals)).
  apply T with (P := fun _ v => is_real v r).
  - eapply reg_cells_foot; eauto.
  - intros s Hs. rewrite Forall_forall in C. apply C. apply entry_in; auto. apply W.
  - intros k vs Hk Lv Hvs. apply lin_nd_const; auto. cbn [r_dims r_starts r_steps] in *.
    destruct W as (_ & L1 & L2 & _). cbn [r_dims r_starts r_steps] in *.
    assert (Ek := @mapM_snoc_nth _ 0%Z _ _ _ Eos k Hk). cbn [r_dims r_starts r_steps] in Ek.
    unfold reg_cell in Ek. apply bind_ok in Ek as (q & Eq & Ek). inversion Ek as [Eo]; clear Ek.
    destruct (to_isize o _) as [q'|] eqn:Ei in Eq; cbn [ok_or] in Eq; [|discriminate]. injection Eq as ->.
    assert (Lk : (k < length x)%nat) by lia. assert (Ls : (k < length starts)%nat) by lia. assert (Lh : (k < length steps)%nat) by lia.
    eapply (P k _ _ _ _ (nth_error_nth_some _ starts k (fzero o) Ls) (nth_error_nth_some _ steps k (fzero o) Lh)
        (nth_error_nth_some _ dims k 0%Z Hk) (nth_error_nth_some _ x k (fzero o) Lk) q fma _ Ei).
    unfold reg_node, uf. destruct (@of_usize_some _ _ Hp He (Z.min (Z.max q 0) (nth k dims 0%Z - 2))) as (n & ->). reflexivity.
Qed.

(** ** Positions of points inside a rectilinear grid *)

Lemma emin_le : (emin <= emax - 1)%Z.
Proof. unfold Prec_gt_0, Prec_lt_emax in *. lia. Qed.

Lemma small_sub (a b : fl) : small a -> small b ->
  fin (fsub o a b) /\ B2R (fsub o a b) = rnd (B2R a - B2R b).
Proof.
  intros (Fa & Ba) (Fb & Bb).
  assert (B : Rabs (B2R a - B2R b) <= bpow radix2 (emax - 1)).
  { replace (emax - 1)%Z with (emax - 2 + 1)%Z by lia. rewrite bpow_plus_1. simpl (IZR radix2).
    apply Rabs_le. apply Rabs_le_inv in Ba. apply Rabs_le_inv in Bb. lra. }
  destruct (@rounds_bound _ _ Hp _ _ (emax - 1)%Z (sub_rounds Hp He a b Fa Fb)) as (F & V & _); auto.
  assert (A := emin_le). lia.
Qed.

Lemma sub_nonzero (a b : fl) : B2R a <> B2R b -> rnd (B2R a - B2R b) <> 0.
Proof.
  intros H. unfold Rminus. apply round_plus_neq_0; try typeclasses eauto.
  - apply generic_format_B2R.
  - apply generic_format_opp, generic_format_B2R.
  - lra.
Qed.

Lemma one_val : rnd 1 = 1.
Proof. rewrite <- (Bone_correct prec emax Hp He). apply rnd_id; auto. Qed.

(** The position of a point of the cell [a, b]. *)
Lemma position_range (a b x : fl) : small a -> small b -> small x -> B2R a <= B2R x <= B2R b -> B2R a < B2R b ->
  let t := fdiv o (fsub o x a) (fsub o b a) in
  fin t /\ B2R t = rnd (rnd (B2R x - B2R a) / rnd (B2R b - B2R a)) /\ 0 <= B2R t <= 1 /\
  0 <= rnd (B2R x - B2R a) <= rnd (B2R b - B2R a) /\ 0 < rnd (B2R b - B2R a).
Proof.
  intros Sa Sb Sx Hx Hab t.
  destruct (small_sub x a Sx Sa) as (F1 & V1). destruct (small_sub b a Sb Sa) as (F2 & V2).
  assert (P0 : 0 <= rnd (B2R x - B2R a)) by (apply rnd_nonneg; auto; lra).
  assert (P1 : rnd (B2R x - B2R a) <= rnd (B2R b - B2R a)) by (apply rnd_le; auto; lra).
  assert (N := sub_nonzero b a ltac:(lra)).
  assert (P2 : 0 < rnd (B2R b - B2R a)) by lra.
  assert (Q : 0 <= rnd (B2R x - B2R a) / rnd (B2R b - B2R a) <= 1).
  { split.
    - apply Rmult_le_pos; auto. left. apply Rinv_0_lt_compat; auto.
    - apply Rmult_le_reg_r with (rnd (B2R b - B2R a)); auto. unfold Rdiv. rewrite Rmult_assoc, Rinv_l by lra. lra. }
  assert (R : 0 <= rnd (rnd (B2R x - B2R a) / rnd (B2R b - B2R a)) <= 1).
  { split; [apply rnd_nonneg; auto; lra|]. rewrite <- one_val. apply rnd_le; auto. lra. }
  destruct (div_ok (fsub o x a) (fsub o b a) F1 ltac:(lra)) as (F & V).
  { rewrite V1, V2. rewrite Rabs_pos_eq by lra. apply Rle_lt_trans with 1; [lra|].
    change 1 with (bpow radix2 0). apply bpow_lt. unfold Prec_gt_0, Prec_lt_emax in *. lia. }
  unfold t. rewrite V, V1, V2. repeat split; try lra; auto. 
Qed.

(** Cell of a point inside the grid. *)
Lemma inside_cell (g : list fl) (x d : fl) : increasing_grid o g -> (2 <= zlen g)%Z -> Forall (@moderate prec emax) g -> fin x ->
  fle o (nth 0 g d) x = true -> fle o x (last g d) = true ->
  exists a b, nth_error g (Z.to_nat (rect_cell o g x)) = Some a /\
    nth_error g (Z.to_nat (rect_cell o g x + 1)) = Some b /\ small a /\ small b /\ small x /\
    B2R a <= B2R x <= B2R b /\ B2R a < B2R b.
Proof.
  intros I Hg S Fx H0 H1.
  assert (L : Z.of_nat (length g) = zlen g) by reflexivity.
  destruct (rect_cell_bracket g x I Hg) as (R & C1 & C2). set (i := rect_cell o g x) in *.
  assert (Li : (Z.to_nat i < length g)%nat) by lia. assert (Lj : (Z.to_nat (i + 1) < length g)%nat) by lia.
  exists (nth (Z.to_nat i) g d), (nth (Z.to_nat (i + 1)) g d).
  assert (Ea := nth_error_nth_some _ g _ d Li). assert (Eb := nth_error_nth_some _ g _ d Lj).
  assert (Sa := Forall_nth_lt d S Li). assert (Sb := Forall_nth_lt d S Lj). simpl in Sa, Sb.
  assert (L0 : (0 < length g)%nat) by lia. assert (L1 : (length g - 1 < length g)%nat) by lia.
  assert (Sf := Forall_nth_lt d S L0). simpl in Sf.
  assert (Sl := Forall_nth_lt d S L1). simpl in Sl. rewrite last_nth in H1.
  assert (Lab : B2R (nth (Z.to_nat i) g d) < B2R (nth (Z.to_nat (i + 1)) g d)).
  { apply (ltb_fin Hp He); [apply Sa|apply Sb|]. eapply I; [|exact Ea|exact Eb]. lia. }
  assert (La : B2R (nth (Z.to_nat i) g d) <= B2R x).
  { destruct (Z.eq_dec i 0) as [-> |]; [apply leb_fin in H0; auto; apply Sf|].
    left. apply (ltb_fin Hp He); [apply Sa|auto|]. apply C1; [lia|auto]. }
  assert (Lb : B2R x <= B2R (nth (Z.to_nat (i + 1)) g d)).
  { destruct (Z.eq_dec i (zlen g - 2)) as [Ei|].
    - replace (Z.to_nat (i + 1)) with (length g - 1)%nat by lia. apply leb_fin in H1; auto. apply Sl.
    - specialize (C2 _ ltac:(lia) Eb). apply Rnot_lt_le. intros C. apply (ltb_fin Hp He) in C; [congruence|apply Sb|auto]. }
  assert (Sx : small x).
  { split; auto. destruct Sa as (_ & Ba), Sb as (_ & Bb). apply Rabs_le_inv in Ba. apply Rabs_le_inv in Bb.
    apply Rabs_le. lra. }
  repeat split; auto; first [apply Sa | apply Sb | apply Sx | lra].
Qed.

Lemma bracketing_less (g : list fl) x i j : increasing_grid o g ->
  bracketing_cell o x g i -> bracketing_cell o x g j -> ~ (i < j)%Z.
Proof.
  intros I (Ri & _ & Hi) (Rj & Hj & _) Hij.
  assert (L : Z.of_nat (length g) = zlen g) by reflexivity.
  assert (Li : (Z.to_nat (i + 1) < length g)%nat) by lia. assert (Lj : (Z.to_nat j < length g)%nat) by lia.
  assert (Ei := nth_error_nth_some _ g _ x Li). assert (Ej := nth_error_nth_some _ g _ x Lj).
  specialize (Hi _ ltac:(lia) Ei). specialize (Hj _ ltac:(lia) Ej).
  destruct (Z.eq_dec (i + 1) j) as [<- |]; [congruence|].
  assert (flt o (nth (Z.to_nat (i + 1)) g x) (nth (Z.to_nat j) g x) = true) by (eapply I; [|exact Ei|exact Ej]; lia).
  assert (flt o (nth (Z.to_nat (i + 1)) g x) x = true) by (eapply BOps_transitive; eauto). congruence.
Qed.
Lemma bracketing_unique (g : list fl) x i j : increasing_grid o g ->
  bracketing_cell o x g i -> bracketing_cell o x g j -> i = j.
Proof.
  intros I Hi Hj. assert (A := bracketing_less g x i j I Hi Hj). assert (B := bracketing_less g x j i I Hj Hi). lia.
Qed.

Lemma inside_position_finite (g : list fl) (x d : fl) : increasing_grid o g -> (2 <= zlen g)%Z -> Forall (@moderate prec emax) g -> fin x ->
  fle o (nth 0 g d) x = true -> fle o x (last g d) = true -> rect_position_finite Hp He g x.
Proof.
  intros I Hg S Fx H0 H1 i a b B Ea Eb.
  assert (Ei : i = rect_cell o g x).
  { eapply bracketing_unique; [exact I|exact B|].
    apply rect_cell_bracket; auto. }
  subst i. destruct (inside_cell g x d I Hg S Fx H0 H1) as (a' & b' & Ea' & Eb' & Sa & Sb & Sx & H & H').
  rewrite Ea in Ea'. rewrite Eb in Eb'. inversion Ea'; inversion Eb'; subst.
  apply (position_range a' b' x Sa Sb Sx H H').
Qed.

Lemma inside_ends (g : list fl) x d : (1 <= zlen g)%Z -> inside_grid Hp He g x ->
  fin x /\ fle o (nth 0 g d) x = true /\ fle o x (last g d) = true.
Proof.
  intros Hg (Fx & H0 & H1). split; auto. destruct g as [|a g]; [unfold zlen in Hg; simpl in Hg; lia|].
  split; [apply H0; reflexivity|]. apply H1.
  destruct (exists_last (l := a :: g)) as (l & b & E); [discriminate|]. rewrite E, rev_app_distr, last_last. reflexivity.
Qed.

Theorem C34_proof_inside c grids vals eval x r : float_rectilinear Hp He c grids vals eval ->
  length x = length grids -> Forall (increasing_grid o) grids -> Forall (Forall (@moderate prec emax)) grids ->
  Forall2 (inside_grid Hp He) grids x -> Forall (fun v => is_real v r) vals ->
  exists v, eval x = Ok v /\ is_real v r.
Proof.
  intros H Lx I S P C. eapply C34_proof_rectilinear; eauto.
  destruct (float_rectilinear_inv _ _ _ _ _ _ _ _ H) as ((_ & _ & D & _) & _). cbn [g_grids] in D.
  apply Forall2_nth_intro with (da := []) (db := fzero o); [lia|]. intros k Hk.
  assert (D' := Forall_nth_lt [] D Hk). simpl in D'.
  destruct (inside_ends (nth k grids []) (nth k x (fzero o)) (fzero o)) as (Fx & H0 & H1);
    [lia|eapply Forall2_nth_lt; eauto|].
  eapply inside_position_finite; eauto; [apply (Forall_nth_lt [] I Hk)|apply (Forall_nth_lt [] S Hk)].
Qed.

(** ** C35: grid nodes *)
Lemma nth_firstn_lt A (l : list A) k j d : (j < k)%nat -> nth j (firstn k l) d = nth j l d.
Proof. revert k j. induction l as [|a l IH]; intros [|k] [|j] H; simpl; try lia; auto. apply IH. lia. Qed.

Lemma node_tens c dims vals origin idx (t : nat -> fl) :
  vals_wf dims vals -> foot_in 2 dims origin -> in_shape dims idx ->
  Forall (fun v => fin v) vals -> exact_differences Hp He vals ->
  (forall k, (k < length dims)%nat -> fin (t k) /\
     (B2R (t k) = 0 /\ nth k idx 0%Z = nth k origin 0%Z \/ B2R (t k) = 1 /\ nth k idx 0%Z = (nth k origin 0 + 1)%Z)) ->
  is_real (tens 2 (entry (fzero o) dims vals) (fun k => lin_nd o c (t k)) origin (length dims) [])
          (B2R (entry (fzero o) dims vals idx)).
Proof.
  intros Hv Hf Hs Fv Xd Ht. assert (L := foot_in_length Hf). assert (Ls : length dims = length idx) by (clear - Hs; induction Hs; simpl; congruence).
  set (V := entry (fzero o) dims vals) in *.
  assert (G : forall k suf, (k <= length dims)%nat -> in_foot 2 origin k suf ->
    is_real (tens 2 V (fun k => lin_nd o c (t k)) origin k suf) (B2R (V (firstn k idx ++ suf)))).
  { induction k as [|k IH]; intros suf Hk Hsuf.
    - simpl. split; auto. rewrite Forall_forall in Fv. apply Fv. apply entry_in; auto. eapply foot_in_shape; eauto.
    - cbn [tens seq map]. destruct (Ht k ltac:(lia)) as (Ft & Hc).
      assert (S0 : in_foot 2 origin k ((nth k origin 0 + 0)%Z :: suf)) by (apply (@in_foot_cons 2 origin k 0); auto; lia).
      assert (S1 : in_foot 2 origin k ((nth k origin 0 + 1)%Z :: suf)) by (apply (@in_foot_cons 2 origin k 1); auto; lia).
      change (Z.of_nat 0) with 0%Z. change (Z.of_nat 1) with 1%Z.
      assert (R0 := IH _ ltac:(lia) S0). assert (R1 := IH _ ltac:(lia) S1).
      set (a := tens 2 V _ origin k ((nth k origin 0 + 0)%Z :: suf)) in *.
      set (b := tens 2 V _ origin k ((nth k origin 0 + 1)%Z :: suf)) in *.
      assert (Hfn : firstn (S k) idx = firstn k idx ++ [nth k idx 0%Z]).
      { clear - Ls Hk. assert (Hk' : (k < length idx)%nat) by lia. clear Ls Hk. revert k Hk'.
        induction idx as [|a l IH]; intros [|k] Hk; simpl in *; try lia; auto. rewrite IH by lia. reflexivity. }
      rewrite Hfn, <- app_assoc. cbn [app].
      assert (IN : forall i, (nth k origin 0 <= i < nth k origin 0 + 2)%Z -> In (V (firstn k idx ++ i :: suf)) vals).
      { intros i Hi. apply entry_in; auto. apply Forall2_nth_intro with (da := 0%Z) (db := 0%Z).
        - rewrite app_length, firstn_length. cbn [length]. destruct Hsuf as (Lsuf & _). lia.
        - intros j Hj. destruct Hsuf as (Lsuf & Hsuf).
          destruct (Nat.lt_trichotomy j k) as [Hj'|[-> |Hj']].
          + rewrite app_nth1 by (rewrite firstn_length; lia).
            rewrite nth_firstn_lt by auto. apply (Forall2_nth_lt _ _ _ _ _ j 0%Z 0%Z Hs); lia.
          + rewrite app_nth2 by (rewrite firstn_length; lia). rewrite firstn_length.
            replace (k - Nat.min k (length idx))%nat with 0%nat by lia. cbn [nth].
            assert (G := @foot_in_nth _ _ _ k Hf ltac:(lia)). lia.
          + rewrite app_nth2 by (rewrite firstn_length; lia). rewrite firstn_length.
            replace (j - Nat.min k (length idx))%nat with (S (j - S k)) by lia. cbn [nth].
            specialize (Hsuf (j - S k)%nat ltac:(lia)). replace (S k + (j - S k))%nat with j in Hsuf by lia.
            assert (G := @foot_in_nth _ _ _ j Hf ltac:(lia)). lia. }
      assert (I0 := IN (nth k origin 0 + 0)%Z ltac:(lia)). assert (I1 := IN (nth k origin 0 + 1)%Z ltac:(lia)).
      set (va := V (firstn k idx ++ (nth k origin 0 + 0)%Z :: suf)) in *.
      set (vb := V (firstn k idx ++ (nth k origin 0 + 1)%Z :: suf)) in *.
      destruct R0 as (Fa & Va). destruct R1 as (Fb & Vb). destruct (Xd vb va I1 I0) as (Fd & Vd).
      destruct (sub_exact b a (fsub o vb va) Fb Fa ltac:(lra)) as (Fs & Vs).
      destruct Hc as [(T & Ei)|(T & Ei)]; rewrite Ei.
      + assert (Eq : V (firstn k idx ++ nth k origin 0%Z :: suf) = va) by (unfold va; rewrite Z.add_0_r; reflexivity).
        rewrite Eq, <- Va. apply lin_nd_exact with (p := fzero o); auto.
        * rewrite T. cbn [fzero BOps B2R]. lra.
        * cbn [fzero BOps B2R]. lra.
      + fold vb. rewrite <- Vb. apply lin_nd_exact with (p := fsub o b a); auto; [rewrite T; lra|lra]. }
  specialize (G (length dims) []). rewrite app_nil_r in G. rewrite firstn_all2 in G by lia.
  apply G; auto. rewrite L. apply in_foot_nil.
Qed.

(** Position of a grid point of a rectilinear axis. *)
Lemma node_cell (g : list fl) j d : increasing_grid o g -> (2 <= zlen g)%Z -> (0 <= j < zlen g)%Z ->
  rect_cell o g (nth (Z.to_nat j) g d) = Z.max (j - 1) 0.
Proof.
  intros I Hg Hj. assert (L : Z.of_nat (length g) = zlen g) by reflexivity.
  assert (Lj : (Z.to_nat j < length g)%nat) by lia.
  assert (Ej := nth_error_nth_some _ g _ d Lj). set (x := nth (Z.to_nat j) g d) in *.
  apply (bracketing_unique g x); auto; [apply rect_cell_bracket; auto|].
  split; [lia|]. split.
  - intros a Ha Ea. eapply I; [|exact Ea|exact Ej]. lia.
  - intros b Hb Eb. destruct (Z.eq_dec j (Z.max (j - 1) 0 + 1)) as [E|].
    + rewrite <- E, Ej in Eb. injection Eb as <-. apply BOps_irreflexive.
    + destruct (flt o b x) eqn:C; auto. assert (C' : flt o x b = true) by (eapply I; [|exact Ej|exact Eb]; lia).
      assert (A := BOps_transitive Hp He _ _ _ C C'). rewrite BOps_irreflexive in A. discriminate.
Qed.

Lemma div_self (a : fl) : fin a -> B2R a <> 0 -> is_real (fdiv o a a) 1.
Proof.
  intros Fa Na. assert (B1 := Bone_correct prec emax Hp He).
  assert (Q : B2R a / B2R a = 1) by (field; auto).
  destruct (div_exact a a Bone Fa Na) as (F & V); [rewrite B1; auto|]. split; auto. rewrite V. auto.
Qed.
Lemma div_zero (a b : fl) : is_real a 0 -> B2R b <> 0 -> is_real (fdiv o a b) 0.
Proof.
  intros (Fa & Va) Nb. assert (Q : B2R a / B2R b = 0) by (rewrite Va; unfold Rdiv; ring).
  destruct (div_exact a b (fzero o) Fa Nb) as (F & V); [rewrite Q; reflexivity|]. split; auto. rewrite V. auto.
Qed.

Lemma node_position (g : list fl) j : increasing_grid o g -> (2 <= zlen g)%Z -> (0 <= j < zlen g)%Z ->
  Forall (@moderate prec emax) g ->
  let x := nth (Z.to_nat j) g (fzero o) in let i := rect_cell o g x in
  is_real (rect_dtp o g x i) 0 /\ j = i \/ is_real (rect_dtp o g x i) 1 /\ j = (i + 1)%Z.
Proof.
  intros I Hg Hj S x i. assert (Ei : i = Z.max (j - 1) 0) by (apply node_cell; auto).
  assert (L : Z.of_nat (length g) = zlen g) by reflexivity.
  assert (Si : forall n, (0 <= n < zlen g)%Z -> small (gz o g n)).
  { intros n Hn. unfold gz. apply (Forall_nth_lt (fzero o) S). lia. }
  assert (Lt : B2R (gz o g i) < B2R (gz o g (i + 1))).
  { apply (ltb_fin Hp He); [apply Si; lia|apply Si; lia|].
    eapply I with (i := Z.to_nat i) (j := Z.to_nat (i + 1)); [lia| |]; unfold gz; apply nth_error_nth_some; lia. }
  destruct (small_sub (gz o g (i + 1)) (gz o g i)) as (Fd & Vd); [apply Si; lia|apply Si; lia|].
  assert (Nd : B2R (fsub o (gz o g (i + 1)) (gz o g i)) <> 0) by (rewrite Vd; apply sub_nonzero; lra).
  unfold rect_dtp. destruct (Z.eq_dec j 0) as [E0|].
  - left. assert (i = 0)%Z by lia. split; [|lia]. apply div_zero; auto.
    assert (Ex : x = gz o g i) by (unfold x, gz; f_equal; lia). rewrite Ex.
    destruct (Si i ltac:(lia)) as (Fg & _).
    destruct (sub_exact (gz o g i) (gz o g i) (fzero o) Fg Fg) as (F & V); [simpl; lra|]. split; auto. rewrite V. lra.
  - right. split; [|lia]. assert (Ex : x = gz o g (i + 1)) by (unfold x, gz; f_equal; lia). rewrite Ex.
    apply div_self; auto.
Qed.

Lemma grid_point_nth (grids : list (list fl)) idx k d : length idx = length grids -> (k < length grids)%nat ->
  nth k (grid_point d grids idx) d = nth (Z.to_nat (nth k idx 0%Z)) (nth k grids []) d.
Proof.
  revert idx k. induction grids as [|g gs IH]; intros [|i is] [|k] Hl Hk; simpl in *; try lia; auto. apply IH; lia.
Qed.
Lemma grid_point_length (grids : list (list fl)) idx d : length idx = length grids -> length (grid_point d grids idx) = length grids.
Proof. revert idx. induction grids as [|g gs IH]; intros [|i is] Hl; simpl in *; try lia. rewrite IH; lia. Qed.

Theorem C35_proof_rectilinear c grids vals eval idx : float_rectilinear Hp He c grids vals eval ->
  Forall (increasing_grid o) grids -> Forall (Forall (@moderate prec emax)) grids ->
  Forall (fun v => fin v) vals -> exact_differences Hp He vals -> in_shape (map zlen grids) idx ->
  exists v, eval (grid_point (fzero o) grids idx) = Ok v /\ is_real v (B2R (entry (fzero o) (map zlen grids) vals idx)).
Proof.
  intros H I S Fv Xd Hs. destruct (float_rectilinear_inv _ _ _ _ _ _ _ _ H) as (W & E).
  assert (Li : length idx = length grids).
  { assert (length (map zlen grids) = length idx) by (clear - Hs; induction Hs; simpl; congruence). rewrite map_length in *. lia. }
  rewrite E by (apply grid_point_length; auto). eexists. split; [reflexivity|]. unfold mlc_value.
  destruct (rect_wf_dims W) as (L & _). rewrite <- L.
  assert (Hf := @rect_cells_foot _ o _ (grid_point (fzero o) grids idx) W).
  apply (node_tens c (map zlen grids) vals _ idx
     (fun k => rect_dtp o (nth k grids []) (nth k (grid_point (fzero o) grids idx) (fzero o))
        (rect_cell o (nth k grids []) (nth k (grid_point (fzero o) grids idx) (fzero o))))); auto.
  - apply W.
  - intros k Hk. assert (Hk' : (k < length grids)%nat) by (rewrite map_length in Hk; auto).
    rewrite rect_cells_nth by auto. cbn [g_grids].
    rewrite grid_point_nth by auto.
    assert (D : (2 <= zlen (nth k grids []))%Z) by (destruct W as (_ & _ & D & _); apply (Forall_nth_lt [] D Hk')).
    assert (R := Forall2_nth_lt _ _ _ _ _ k 0%Z 0%Z Hs Hk). simpl in R.
    rewrite (nth_indep (map zlen grids) 0%Z (zlen (@nil fl))) in R by (rewrite map_length; auto). rewrite map_nth in R.
    destruct (node_position (nth k grids []) (nth k idx 0%Z) (Forall_nth_lt [] I Hk') D R (Forall_nth_lt [] S Hk')) as [((F & V) & Ei)|((F & V) & Ei)];
      (split; [exact F|]); [left|right]; (split; [exact V|exact Ei]).
Qed.

(** Position of a grid point of a regular axis whose coordinates are all representable. *)
Lemma reg_node_position start h d fma (x : fl) j i : flt o (fzero o) h = true -> fin h -> fin start ->
  (2 <= d <= 2 ^ prec)%Z -> (0 <= j < d)%Z -> exact_axis start h d -> is_real x (B2R start + B2R h * IZR j) ->
  reg_cell o start h d x = Ok i ->
  is_real (reg_dtp o fma start h x i) 0 /\ j = i \/ is_real (reg_dtp o fma start h x i) 1 /\ j = (i + 1)%Z.
Proof.
  intros Ph Fh Fs Hd Hj X (Fx & Vx) Ec.
  assert (Ph' : 0 < B2R h) by (apply ltb_fin in Ph; auto).
  assert (Ei : i = Z.min j (d - 2)).
  { unfold reg_cell in Ec. apply bind_ok in Ec as (q & Eq & Ec). injection Ec as <-.
    destruct (to_isize o _) as [q'|] eqn:Et in Eq; cbn [ok_or] in Eq; [|discriminate]. injection Eq as ->.
    destruct (cell_floor _ _ _ _ _ _ _ _ Ph Et) as (_ & _ & [(-> & _)|(_ & _ & _ & Vq)]); [discriminate|].
    destruct (X j Hj) as (p & _ & Vp & _).
    replace (B2R x - B2R start) with (B2R p) in Vq by lra. rewrite rnd_id in Vq by auto. rewrite Vp in Vq.
    replace (B2R h * IZR j / B2R h) with (IZR j) in Vq by (field; lra).
    rewrite (izr_fl _ _ Hp He) in Vq by lia. rewrite Zfloor_IZR in Vq. lia. }
  assert (Ri : (0 <= i < d)%Z) by lia.
  destruct (X i Ri) as (p & n & Vp & Vn).
  (* the computed coordinate of node i is exact *)
  assert (N : is_real (if fma then fmuladd o h (uf o i) start else fadd o start (fmul o h (uf o i))) (B2R n)).
  { assert (U : fin (uf o i) /\ B2R (uf o i) = IZR i).
    { unfold uf. destruct (@of_usize_some _ _ Hp He i) as (v & Ev). rewrite Ev. apply (@of_usize_spec _ _ Hp He _ _ Ev). lia. }
    destruct U as (Fu & Vu). destruct fma.
    - destruct (fma_exact h (uf o i) start n Fh Fu Fs) as (F & V); [rewrite Vu; lra|]. split; auto. rewrite V, Vu. lra.
    - destruct (mul_exact h (uf o i) p Fh Fu) as (F & V); [rewrite Vu; lra|].
      destruct (add_exact start (fmul o h (uf o i)) n Fs F) as (F' & V'); [rewrite V, Vu; lra|]. split; auto. rewrite V', V, Vu. lra. }
  unfold reg_dtp. set (m := if fma then _ else _) in *. destruct N as (Fm & Vm).
  destruct (Z.eq_dec j i) as [E|].
  - left. split; auto. apply div_zero; [|lra].
    destruct (sub_exact x m (fzero o) Fx Fm) as (F & V); [rewrite Vx, Vm, Vn, E; simpl; lra|]. split; auto. rewrite V, Vx, Vm, Vn, E. lra.
  - right. assert (Ej : j = (i + 1)%Z) by lia. split; auto.
    assert (Dx : B2R x - B2R m = B2R h) by (rewrite Vx, Vm, Vn, Ej, plus_IZR; lra).
    destruct (sub_exact x m h Fx Fm Dx) as (F & V).
    assert (B1 := Bone_correct prec emax Hp He).
    assert (Q : B2R (fsub o x m) / B2R h = 1) by (rewrite V, Dx; field; lra).
    destruct (div_exact (fsub o x m) h Bone F) as (F' & V'); [lra|rewrite B1; auto|]. split; auto. rewrite V'. auto.
Qed.

Theorem C35_proof_regular c dims starts steps vals eval idx x v : float_regular Hp He c dims starts steps vals eval ->
  Forall (fun s => fin s) starts -> Forall (fun h => fin h) steps -> Forall (fun d => d <= 2 ^ prec)%Z dims ->
  (forall k start h d, nth_error starts k = Some start -> nth_error steps k = Some h -> nth_error dims k = Some d ->
     exact_axis start h d) ->
  Forall (fun v => fin v) vals -> exact_differences Hp He vals -> in_shape dims idx ->
  length x = length dims ->
  (forall k start h i xk, nth_error starts k = Some start -> nth_error steps k = Some h -> nth_error idx k = Some i ->
     nth_error x k = Some xk -> is_real xk (B2R start + B2R h * IZR i)) ->
  eval x = Ok v -> is_real v (B2R (entry (fzero o) dims vals idx)).
Proof.
  intros H Fs Fh Hd X Fv Xd Hs Lx Hx Ev. destruct (float_regular_inv _ _ _ _ _ _ _ _ _ _ H) as (W & P & fma & E).
  assert (Li : length dims = length idx) by (clear - Hs; induction Hs; simpl; congruence).
  rewrite E in Ev by auto. apply bind_ok in Ev as (os & Eos & Ev). injection Ev as <-. unfold mlr_value.
  assert (Hf := @reg_cells_foot _ o _ x os W Eos).
  apply (node_tens c dims vals os idx (fun k => reg_dtp o fma (nth k starts (fzero o)) (nth k steps (fzero o)) (nth k x (fzero o)) (nth k os 0%Z))); auto.
  - apply W.
  - intros k Hk. destruct W as (_ & L1 & L2 & D & _). cbn [r_dims r_starts r_steps] in *.
    assert (Ek := @mapM_snoc_nth _ 0%Z _ _ _ Eos k Hk). cbn [r_dims r_starts r_steps] in Ek.
    assert (K1 : (k < length starts)%nat) by lia. assert (K2 : (k < length steps)%nat) by lia.
    assert (K3 : (k < length x)%nat) by lia. assert (K4 : (k < length idx)%nat) by lia.
    assert (D1 := Forall_nth_lt 0%Z D Hk). assert (D2 := Forall_nth_lt 0%Z Hd Hk). simpl in D1, D2.
    assert (R := Forall2_nth_lt _ _ _ _ _ k 0%Z 0%Z Hs Hk). simpl in R.
    destruct (reg_node_position (nth k starts (fzero o)) (nth k steps (fzero o)) (nth k dims 0%Z) fma (nth k x (fzero o)) (nth k idx 0%Z) (nth k os 0%Z))
      as [((F & V) & Ei)|((F & V) & Ei)]; auto.
    + apply (Forall_nth_lt (fzero o) P); auto.
    + apply (Forall_nth_lt (fzero o) Fh); auto.
    + apply (Forall_nth_lt (fzero o) Fs); auto.
    + apply (X k); apply nth_error_nth_some; auto.
    + apply (Hx k); apply nth_error_nth_some; auto.
Qed.

(** Multiples of a power of two with less than [prec - 1] bits. *)
Lemma scaled_exact (e m : Z) : (emin <= e)%Z -> (Z.abs m < 2 ^ prec)%Z ->
  generic_format radix2 fexp (IZR m * bpow radix2 e).
Proof.
  intros Hl Hm. apply generic_format_FLT. exists (Float radix2 m e); auto.
Qed.
Lemma scaled_differences (e : Z) (vals : list fl) : (emin <= e)%Z -> (e + prec <= emax)%Z ->
  Forall (fun v => fin v /\ exists m, (Z.abs m < 2 ^ (prec - 1))%Z /\ B2R v = IZR m * bpow radix2 e) vals ->
  exact_differences Hp He vals.
Proof.
  intros Hl Hu H v w Hv Hw. rewrite Forall_forall in H.
  destruct (H v Hv) as (Fv & m & Bm & Em). destruct (H w Hw) as (Fw & n & Bn & En).
  assert (P : (2 ^ prec = 2 * 2 ^ (prec - 1))%Z).
  { unfold Prec_gt_0 in Hp. rewrite <- Z.pow_succ_r by lia. f_equal. lia. }
  assert (D : B2R v - B2R w = IZR (m - n) * bpow radix2 e) by (rewrite minus_IZR, Em, En; ring).
  assert (B : (Z.abs (m - n) < 2 ^ prec)%Z) by lia.
  assert (E : rnd (B2R v - B2R w) = B2R v - B2R w).
  { rewrite D. apply round_generic; [typeclasses eauto|]. apply scaled_exact; auto. }
  destruct (sub_ok v w Fv Fw) as (F & V).
  - rewrite E, D, Rabs_mult, <- abs_IZR. rewrite (Rabs_pos_eq (bpow radix2 e)) by apply bpow_ge_0.
    apply Rlt_le_trans with (bpow radix2 prec * bpow radix2 e).
    + apply Rmult_lt_compat_r; [apply bpow_gt_0|]. rewrite <- IZR_Zpower by (unfold Prec_gt_0 in Hp; lia).
      apply IZR_lt. exact B.
    + rewrite <- bpow_plus. apply bpow_le. lia.
  - split; auto. congruence.
Qed.
End B.
