(** Change of units: the interpolators. *)
From Coq Require Import Reals Lra ZArith Bool ZifyBool Psatz.
From Flocq Require Import Core.Core Relative IEEE754.BinarySingleNaN.
From Verif Require Import Base Ops FInst ModelCore ModelLinear ModelCubic ModelNearest Spec SpecIEEE SpecUnits
  CoreLemmas MethodLemmas TensorLemmas MethodChar GenLemmas FLemmas UnitProofs.
Unset Implicit Arguments.
Open Scope list_scope.
Open Scope Z_scope.

(** Two interpolators with the same values whose per-axis computations agree. *)
Section Same.
Context {F : Type} (o : Ops F) (c : cfg).

Lemma tens_same FP V (nd nd' : nat -> list F -> F) os n : length os = n ->
  (forall j vs, (j < n)%nat -> length vs = FP -> nd j vs = nd' j vs) ->
  tens FP V nd os n [] = tens FP V nd' os n [].
Proof. intros L H. subst n. apply tens_ext; auto. apply in_foot_nil. Qed.

Section Rect.
Variables (s s' : rectilinear F) (x x' : list F).
Hypothesis W : rect_wf 2 s.
Hypothesis W' : rect_wf 2 s'.
Hypothesis Ed : g_dims s' = g_dims s.
Hypothesis Ev : g_vals s' = g_vals s.
Hypothesis Lx : length x = length (g_grids s).
Hypothesis Lx' : length x' = length (g_grids s).
Hypothesis Lg : length (g_grids s') = length (g_grids s).
Notation gk s k := (nth k (g_grids s) (@nil F)).
Notation xk x k := (nth k x (fzero o)).
Hypothesis Hc : forall k, (k < length (g_grids s))%nat -> rect_cell o (gk s' k) (xk x' k) = rect_cell o (gk s k) (xk x k).
Hypothesis Ht : forall k, (k < length (g_grids s))%nat -> forall i, 0 <= i <= zlen (gk s k) - 2 ->
  rect_dtp o (gk s' k) (xk x' k) i = rect_dtp o (gk s k) (xk x k) i.

Lemma same_cells : rect_cells o s' x' = rect_cells o s x.
Proof using All.
  unfold rect_cells. rewrite Lg. apply map_ext_in. intros k Hk. apply in_seq in Hk. apply Hc. lia.
Qed.
Lemma same_range k : (k < length (g_grids s))%nat -> 0 <= rect_cell o (gk s k) (xk x k) <= zlen (gk s k) - 2.
Proof using W.
  intros Hk. apply rect_cell_range. destruct W as (_ & _ & H & _). exact (Forall_nth_lt [] H Hk).
Qed.
Lemma same_mlc_value : mlc_value o c s' x' = mlc_value o c s x.
Proof using All.
  unfold mlc_value. rewrite same_cells, Ed, Ev, Lg. apply tens_same; [apply rect_cells_length|].
  intros j vs Hj _. rewrite Hc by auto. rewrite Ht; auto. apply same_range; auto.
Qed.
Lemma same_mlc : mlc_interp_one o c s' x' = mlc_interp_one o c s x.
Proof using All. rewrite !mlc_char by (auto; lia). rewrite same_mlc_value. reflexivity. Qed.
Lemma same_mlcr m : (length (g_grids s) <= m)%nat -> mlcr_interp_one o c m s' x' = mlcr_interp_one o c m s x.
Proof using All. intros Hm. rewrite !mlcr_char by (auto; lia). rewrite same_mlc_value. reflexivity. Qed.
Lemma same_nc : nc_interp_one o c s' x' = nc_interp_one o c s x.
Proof using All.
  rewrite !nc_char by (auto; lia). rewrite Ed, Ev, Lg. f_equal. f_equal. apply map_ext_in. intros k Hk. apply in_seq in Hk.
  unfold nc_node. rewrite Hc by lia. rewrite Ht; [reflexivity|lia|]. apply same_range; lia.
Qed.
End Rect.

Section Reg.
Variables (s s' : regular F) (x x' : list F).
Hypothesis U : usize_converts o.
Hypothesis Ed : r_dims s' = r_dims s.
Hypothesis Ev : r_vals s' = r_vals s.
Hypothesis Lx : length x = length (r_dims s).
Hypothesis Lx' : length x' = length (r_dims s).
Notation rst s k := (nth k (r_starts s) (fzero o)).
Notation rsp s k := (nth k (r_steps s) (fzero o)).
Notation rdm s k := (nth k (r_dims s) 0).
Notation xk x k := (nth k x (fzero o)).
Hypothesis Hq : forall k, (k < length (r_dims s))%nat ->
  fdiv o (fsub o (xk x' k) (rst s' k)) (rsp s' k) = fdiv o (fsub o (xk x k) (rst s k)) (rsp s k).
Hypothesis Ht : forall k, (k < length (r_dims s))%nat -> forall fma i, 0 <= i < rdm s k ->
  reg_dtp o fma (rst s' k) (rsp s' k) (xk x' k) i = reg_dtp o fma (rst s k) (rsp s k) (xk x k) i.

Lemma same_reg_cells : reg_cells o s' x' = reg_cells o s x.
Proof.
  unfold reg_cells. rewrite Ed. apply mapM_seq_ext. intros k Hk. unfold reg_cell. rewrite Hq by auto. reflexivity.
Qed.
Lemma same_creg_cells : creg_cells o c s' x' = creg_cells o c s x.
Proof.
  unfold creg_cells. rewrite Ed. apply mapM_seq_ext. intros k Hk. unfold creg_cell. rewrite Hq by auto. reflexivity.
Qed.

Lemma reg_cells_range FP os k : reg_wf FP s -> 2 <= FP -> reg_cells o s x = Ok os -> (k < length (r_dims s))%nat ->
  length os = length (r_dims s) /\ 0 <= nth k os 0 < rdm s k - 1.
Proof using.
  clear. intros W HF E Hk. assert (L := mapM_length _ _ E). rewrite seq_length in L.
  assert (E' := @mapM_snoc_nth _ 0 _ _ _ E k Hk). split; [lia|].
  destruct W as (_ & _ & _ & H3 & _). assert (D := Forall_nth_lt 0 H3 Hk). simpl in D.
  apply reg_cell_range in E'; lia.
Qed.
Lemma creg_cells_range os k : reg_wf 4 s -> creg_cells o c s x = Ok os -> (k < length (r_dims s))%nat ->
  length os = length (r_dims s) /\ 0 <= fst (nth k os az) < rdm s k - 1.
Proof using.
  clear. intros W E Hk. assert (L := mapM_length _ _ E). rewrite seq_length in L.
  assert (E' := @mapM_snoc_nth _ az _ _ _ E k Hk). split; [lia|].
  destruct W as (_ & _ & _ & H3 & _). assert (D := Forall_nth_lt 0 H3 Hk). simpl in D.
  destruct (nth k os az) as (i & sat). apply creg_cell_range in E'; simpl; lia.
Qed.

Section Two.
Hypothesis W : reg_wf 2 s.
Hypothesis W' : reg_wf 2 s'.
Let Ed' : length x' = length (r_dims s').
Proof. rewrite Ed. auto. Qed.

Lemma same_mlr : mlr_interp_one o c s' x' = mlr_interp_one o c s x.
Proof using All.
  rewrite !mlr_char by auto. rewrite same_reg_cells, Ed, Ev.
  destruct (reg_cells o s x) as [os| |] eqn:E; cbn [bind]; auto. f_equal.
  assert (P := proj1 W).
  apply tens_same; [apply (reg_cells_range 2 os 0); auto; lia|]. intros j vs Hj _.
  destruct (reg_cells_range 2 os j W ltac:(lia) E Hj) as (_ & R). rewrite Ht by (auto; lia). reflexivity.
Qed.
Lemma same_mlrr m : (length (r_dims s) <= m)%nat -> mlrr_interp_one o c m s' x' = mlrr_interp_one o c m s x.
Proof using All.
  intros Hm. rewrite !mlrr_char by (auto; rewrite ?Ed; auto). rewrite same_reg_cells, Ed, Ev.
  destruct (reg_cells o s x) as [os| |] eqn:E; cbn [bind]; auto. f_equal.
  assert (P := proj1 W).
  apply tens_same; [apply (reg_cells_range 2 os 0); auto; lia|]. intros j vs Hj _.
  destruct (reg_cells_range 2 os j W ltac:(lia) E Hj) as (_ & R). rewrite Ht by (auto; lia). reflexivity.
Qed.
Lemma same_nr : nr_interp_one o c s' x' = nr_interp_one o c s x.
Proof using All.
  rewrite !nr_char by auto. rewrite same_reg_cells, Ed, Ev.
  destruct (reg_cells o s x) as [os| |] eqn:E; cbn [bind]; auto. f_equal. f_equal.
  apply map_ext_in. intros k Hk. apply in_seq in Hk. unfold nr_node.
  destruct (reg_cells_range 2 os k W ltac:(lia) E ltac:(lia)) as (_ & R). rewrite Ht by lia. reflexivity.
Qed.
End Two.
End Reg.

Lemma same_mcr (s s' : cubic_regular) x x' :
  usize_converts o -> reg_wf 4 (cr_base s) -> reg_wf 4 (cr_base s') -> cr_lin s' = cr_lin s ->
  r_dims (cr_base s') = r_dims (cr_base s) -> r_vals (cr_base s') = r_vals (cr_base s) ->
  length x = length (r_dims (cr_base s)) -> length x' = length (r_dims (cr_base s)) ->
  (forall k, (k < length (r_dims (cr_base s)))%nat ->
    fdiv o (fsub o (nth k x' (fzero o)) (nth k (r_starts (cr_base s')) (fzero o))) (nth k (r_steps (cr_base s')) (fzero o)) =
    fdiv o (fsub o (nth k x (fzero o)) (nth k (r_starts (cr_base s)) (fzero o))) (nth k (r_steps (cr_base s)) (fzero o))) ->
  (forall k, (k < length (r_dims (cr_base s)))%nat -> forall fma i, 0 <= i < nth k (r_dims (cr_base s)) 0 ->
    reg_dtp o fma (nth k (r_starts (cr_base s')) (fzero o)) (nth k (r_steps (cr_base s')) (fzero o)) (nth k x' (fzero o)) i =
    reg_dtp o fma (nth k (r_starts (cr_base s)) (fzero o)) (nth k (r_steps (cr_base s)) (fzero o)) (nth k x (fzero o)) i) ->
  mcr_interp_one o c s' x' = mcr_interp_one o c s x /\
  forall m, (length (r_dims (cr_base s)) <= m)%nat -> mcrr_interp_one o c m s' x' = mcrr_interp_one o c m s x.
Proof.
  intros U W W' El Ed Ev Lx Lx' Hq Ht. assert (P := proj1 W).
  assert (K : forall fma, (do os <- creg_cells o c (cr_base s') x' ;
     Ok (tens 4 (entry (fzero o) (r_dims (cr_base s')) (r_vals (cr_base s'))) (mcr_nd o c fma (cr_lin s') (cr_base s') x' os)
        (map fst os) (length (r_dims (cr_base s'))) [])) =
     (do os <- creg_cells o c (cr_base s) x ;
     Ok (tens 4 (entry (fzero o) (r_dims (cr_base s)) (r_vals (cr_base s))) (mcr_nd o c fma (cr_lin s) (cr_base s) x os)
        (map fst os) (length (r_dims (cr_base s))) []))).
  { intros fma. rewrite (same_creg_cells _ _ x x' Ed Hq), Ed, Ev, El.
    destruct (creg_cells o c (cr_base s) x) as [os| |] eqn:E; cbn [bind]; auto. f_equal.
    apply tens_same; [rewrite map_length; assert (L := mapM_length _ _ E); rewrite seq_length in L; lia|]. intros j vs Hj _.
    assert (R : 0 <= fst (nth j os az) < nth j (r_dims (cr_base s)) 0 - 1) by (apply (creg_cells_range _ x); auto). unfold mcr_nd.
    change (creg_dtp o) with (fun a h v i => reg_dtp o false a h v (i + 1)). cbv beta.
    rewrite Ht by (auto; lia). reflexivity. }
  split.
  - rewrite !mcr_char by (auto; rewrite ?Ed; auto). apply K.
  - intros m Hm. rewrite !mcrr_char by (auto; rewrite ?Ed; auto). apply K.
Qed.
End Same.

(** The cubic method on rectilinear grids. *)
Lemma same_mcc {F} (o : Ops F) c (s s' : cubic_rect) x x' :
  rect_wf 4 (cc_base s) -> rect_wf 4 (cc_base s') -> cc_lin s' = cc_lin s ->
  g_dims (cc_base s') = g_dims (cc_base s) -> g_vals (cc_base s') = g_vals (cc_base s) ->
  length x = length (g_grids (cc_base s)) -> length x' = length (g_grids (cc_base s)) ->
  length (g_grids (cc_base s')) = length (g_grids (cc_base s)) ->
  (forall k, (k < length (g_grids (cc_base s)))%nat ->
    crect_cell o (nth k (g_grids (cc_base s')) []) (nth k x' (fzero o)) = crect_cell o (nth k (g_grids (cc_base s)) []) (nth k x (fzero o))) ->
  (forall k, (k < length (g_grids (cc_base s)))%nat -> forall fma lin sat i vs, 0 <= i <= zlen (nth k (g_grids (cc_base s)) []) - 4 ->
    rect_innerp o c fma lin sat (nth k x' (fzero o)) (cell4 o (nth k (g_grids (cc_base s')) []) i) vs =
    rect_innerp o c fma lin sat (nth k x (fzero o)) (cell4 o (nth k (g_grids (cc_base s)) []) i) vs) ->
  mcc_interp_one o c s' x' = mcc_interp_one o c s x /\
  forall m, (length (g_grids (cc_base s)) <= m)%nat -> mccr_interp_one o c m s' x' = mccr_interp_one o c m s x.
Proof.
  intros W W' El Ed Ev Lx Lx' Lg Hc Hi.
  assert (C : crect_cells o (cc_base s') x' = crect_cells o (cc_base s) x).
  { unfold crect_cells. rewrite Lg. apply map_ext_in. intros k Hk. apply in_seq in Hk. apply Hc. lia. }
  assert (V : forall fma, mcc_value o c fma (cc_lin s') (cc_base s') x' = mcc_value o c fma (cc_lin s) (cc_base s) x).
  { intros fma. unfold mcc_value. rewrite C, Ed, Ev, Lg, El. apply tens_same; [rewrite map_length; apply crect_cells_length|].
    intros j vs Hj _. unfold mcc_nd. cbv zeta. rewrite Hc by auto. apply Hi; auto. apply crect_cell_range.
    destruct W as (_ & _ & H & _). exact (Forall_nth_lt [] H Hj). }
  split.
  - rewrite !mcc_char by (auto; lia). rewrite V. reflexivity.
  - intros m Hm. rewrite !mccr_char by (auto; lia). rewrite V. reflexivity.
Qed.

Section B.
Variables prec emax : Z.
Context (Hp : Prec_gt_0 prec) (He : Prec_lt_emax prec emax).
Notation fl := (binary_float prec emax).
Notation o := (BOps Hp He).

Lemma usize_B : usize_converts o.
Proof. intros n _. eexists. reflexivity. Qed.

(** Construction. *)
Lemma lens_same k (g g' : list fl) : Forall2 (rescaled k) g g' -> zlen g' = zlen g.
Proof. intros H. unfold zlen. rewrite (axis_len _ _ _ _ _ H). reflexivity. Qed.
Lemma mono_same k (g g' : list fl) : Forall2 (rescaled k) g g' -> mono_maybe o g' = mono_maybe o g.
Proof.
  intros H. destruct H as [|a a' l l' H0 H]; [reflexivity|]. destruct H as [|b b' l l' H1 H]; [reflexivity|].
  unfold mono_maybe, aget. cbn [nth_error bind]. f_equal. symmetry. apply (rescaled_lt _ _ _ _ k); auto.
Qed.
Lemma dims_same ks (grids grids' : list (list fl)) :
  each_axis (fun k => Forall2 (rescaled k)) ks grids grids' -> map zlen grids' = map zlen grids.
Proof. induction 1 as [|k ks g l g' m H0 H IH]; simpl; [reflexivity|]. f_equal; auto. eapply lens_same; eauto. Qed.
Lemma allM_same ks (grids grids' : list (list fl)) :
  each_axis (fun k => Forall2 (rescaled k)) ks grids grids' ->
  allM (mono_maybe o) grids' = allM (mono_maybe o) grids.
Proof.
  induction 1 as [|k ks g l g' m H0 H IH]; cbn [allM]; [reflexivity|].
  rewrite (mono_same k _ _ H0), IH. reflexivity.
Qed.
Lemma steps_same ks (steps steps' : list fl) : each_axis rescaled ks steps steps' ->
  forallb (fun v => flt o (fzero o) v) steps' = forallb (fun v => flt o (fzero o) v) steps.
Proof.
  induction 1 as [|k ks h l h' m H0 H IH]; cbn [forallb]; [reflexivity|]. rewrite IH. f_equal.
  symmetry. apply (rescaled_lt _ _ _ _ k); auto. apply rescaled_zero.
Qed.

Section Rect.
Variables (m : rect_method) (c : cfg) (ks : list Z) (grids grids' : list (list fl)) (vals : list fl).
Variables (eval : list fl -> outcome fl).
Hypothesis H3 : 3 <= emax.
Hypothesis Hb : built_rectilinear Hp He m c grids vals eval.
Hypothesis Hg : each_axis (fun k => Forall2 (rescaled k)) ks grids grids'.

Lemma rect_accept : exists eval', built_rectilinear Hp He m c grids' vals eval'.
Proof using Hb Hg.
  assert (L := each_axis_length _ _ _ _ _ _ Hg). assert (D := dims_same _ _ _ Hg). assert (A := allM_same _ _ _ Hg).
  destruct Hb as (I & B).
  assert (I' : rect_input c grids' vals) by (unfold rect_input in *; rewrite D; intuition lia).
  assert (K : forall s, mlc_new o c grids vals = Ok s -> mlc_new o c grids' vals = Ok (mkRect grids' (map zlen grids) vals)).
  { intros s. unfold mlc_new. rewrite D, A. destruct (product c (map zlen grids)) as [nv| |]; cbn [bind]; try discriminate.
    destruct (negb _); [discriminate|]. destruct (existsb _ _); [discriminate|].
    destruct (allM (mono_maybe o) grids) as [b| |]; cbn [bind]; try discriminate. destruct (negb b); [discriminate|reflexivity]. }
  assert (Kc : forall s lin, mcc_new o c grids vals lin = Ok s -> mcc_new o c grids' vals lin = Ok (mkCC (mkRect grids' (map zlen grids) vals) lin)).
  { intros s lin. unfold mcc_new. rewrite D, A. destruct (product c (map zlen grids)) as [nv| |]; cbn [bind]; try discriminate.
    destruct (negb _); [discriminate|]. destruct (existsb _ _); [discriminate|].
    destruct (allM (mono_maybe o) grids) as [b| |]; cbn [bind]; try discriminate. destruct (negb b); [discriminate|reflexivity]. }
  destruct m as [|n| |lin|n lin]; destruct B as (s & N & _).
  - exists (mlc_interp_one o c (mkRect grids' (map zlen grids) vals)). split; auto. eexists. split; [|reflexivity]. eauto.
  - exists (mlcr_interp_one o c n (mkRect grids' (map zlen grids) vals)). split; auto. eexists. split; [|reflexivity].
    revert N. unfold mlcr_new. cbv zeta. replace (length grids') with (length grids) by lia. rewrite D, A.
    destruct (n <? length grids)%nat; [discriminate|].
    destruct (product c (map zlen grids)) as [nv| |]; cbn [bind]; try discriminate.
    destruct (negb _); [discriminate|]. destruct (existsb _ _); [discriminate|].
    destruct (allM (mono_maybe o) grids) as [b| |]; cbn [bind]; try discriminate. destruct (negb b); [discriminate|reflexivity].
  - exists (nc_interp_one o c (mkRect grids' (map zlen grids) vals)). split; auto. eexists. split; [|reflexivity]. eapply K; eauto.
  - exists (mcc_interp_one o c (mkCC (mkRect grids' (map zlen grids) vals) lin)). split; auto. eexists. split; [|reflexivity]. eapply Kc; eauto.
  - exists (mccr_interp_one o c n (mkCC (mkRect grids' (map zlen grids) vals) lin)). split; auto. eexists. split; [|reflexivity].
    revert N. unfold mccr_new. cbv zeta. replace (length grids') with (length grids) by lia. rewrite D, A.
    destruct (n <? length grids)%nat; [discriminate|].
    destruct (product c (map zlen grids)) as [nv| |]; cbn [bind]; try discriminate.
    destruct (negb _); [discriminate|]. destruct (existsb _ _); [discriminate|].
    destruct (allM (mono_maybe o) grids) as [b| |]; cbn [bind]; try discriminate. destruct (negb b); [discriminate|reflexivity].
Qed.

Variables (x x' : list fl) (eval' : list fl -> outcome fl).
Hypothesis Hb' : built_rectilinear Hp He m c grids' vals eval'.
Hypothesis Hx : each_axis rescaled ks x x'.
Hypothesis Mg : Forall (Forall moderate) grids.
Hypothesis Mg' : Forall (Forall moderate) grids'.
Hypothesis Mx : Forall moderate x.
Hypothesis Mx' : Forall moderate x'.

Lemma rect_same : eval' x' = eval x.
Proof using All.
  assert (L := each_axis_length _ _ _ _ _ _ Hg). assert (D := dims_same _ _ _ Hg). assert (Lx := each_axis_length _ _ _ _ _ _ Hx).
  assert (C : forall k, (k < length grids)%nat -> rect_cell o (nth k grids' []) (nth k x' (fzero o)) = rect_cell o (nth k grids []) (nth k x (fzero o))).
  { intros k Hk. apply (axis_cell _ _ _ _ (nth k ks 0)).
    - exact (each_axis_nth _ _ _ _ _ _ [] [] Hg k Hk).
    - apply each_axis_nth; auto. lia. }
  assert (T : forall k, (k < length grids)%nat -> forall i, 0 <= i <= zlen (nth k grids []) - 2 ->
    rect_dtp o (nth k grids' []) (nth k x' (fzero o)) i = rect_dtp o (nth k grids []) (nth k x (fzero o)) i).
  { intros k Hk i Hi. apply (axis_dtp _ _ _ _ (nth k ks 0)); auto.
    - exact (each_axis_nth _ _ _ _ _ _ [] [] Hg k Hk).
    - apply each_axis_nth; auto. lia.
    - apply Forall_nth_lt; auto.
    - apply Forall_nth_lt; auto; lia.
    - apply Forall_nth_lt; auto; lia.
    - apply Forall_nth_lt; auto; lia. }
  assert (Cc : forall k, (k < length grids)%nat -> crect_cell o (nth k grids' []) (nth k x' (fzero o)) = crect_cell o (nth k grids []) (nth k x (fzero o))).
  { intros k Hk. apply (axis_ccell _ _ _ _ (nth k ks 0)).
    - exact (each_axis_nth _ _ _ _ _ _ [] [] Hg k Hk).
    - apply each_axis_nth; auto. lia. }
  assert (Tc : forall k, (k < length grids)%nat -> forall fma lin sat i vs, 0 <= i <= zlen (nth k grids []) - 4 ->
    rect_innerp o c fma lin sat (nth k x' (fzero o)) (cell4 o (nth k grids' []) i) vs =
    rect_innerp o c fma lin sat (nth k x (fzero o)) (cell4 o (nth k grids []) i) vs).
  { intros k Hk fma lin sat i vs Hi. apply (axis_inner _ _ _ _ (nth k ks 0)); auto.
    - exact (each_axis_nth _ _ _ _ _ _ [] [] Hg k Hk).
    - apply each_axis_nth; auto. lia.
    - apply Forall_nth_lt; auto.
    - apply Forall_nth_lt; auto; lia.
    - apply Forall_nth_lt; auto; lia.
    - apply Forall_nth_lt; auto; lia. }
  destruct Hb as (I & B). destruct Hb' as (I' & B'). destruct m as [|n| |lin|n lin].
  - destruct B as (s & N & ->). destruct B' as (s' & N' & ->).
    apply mlc_new_inv in N as (W & ->); auto. apply mlc_new_inv in N' as (W' & ->); auto.
    apply same_mlc; cbn [g_grids g_dims g_vals]; auto; lia.
  - destruct B as (s & N & ->). destruct B' as (s' & N' & ->).
    apply mlcr_new_inv in N as (W & -> & Hm); auto. apply mlcr_new_inv in N' as (W' & -> & Hm'); auto.
    apply same_mlcr; cbn [g_grids g_dims g_vals]; auto; lia.
  - destruct B as (s & N & ->). destruct B' as (s' & N' & ->). unfold nc_new in *.
    apply mlc_new_inv in N as (W & ->); auto. apply mlc_new_inv in N' as (W' & ->); auto.
    apply same_nc; cbn [g_grids g_dims g_vals]; auto; lia.
  - destruct B as (s & N & ->). destruct B' as (s' & N' & ->).
    apply mcc_new_inv in N as (W & ->); auto. apply mcc_new_inv in N' as (W' & ->); auto.
    assert (K := same_mcc o c (mkCC (mkRect grids (map zlen grids) vals) lin) (mkCC (mkRect grids' (map zlen grids') vals) lin) x x' W W').
    cbn [cc_base cc_lin g_grids g_dims g_vals] in K. apply K; auto; lia.
  - destruct B as (s & N & ->). destruct B' as (s' & N' & ->).
    apply mccr_new_inv in N as (W & -> & Hm); auto. apply mccr_new_inv in N' as (W' & -> & Hm'); auto.
    assert (K := same_mcc o c (mkCC (mkRect grids (map zlen grids) vals) lin) (mkCC (mkRect grids' (map zlen grids') vals) lin) x x' W W').
    cbn [cc_base cc_lin g_grids g_dims g_vals] in K. apply K; auto; lia.
Qed.
End Rect.

Section Reg.
Variables (m : reg_method) (c : cfg) (ks : list Z) (dims : list Z) (starts steps starts' steps' vals : list fl).
Variables (eval : list fl -> outcome fl).
Hypothesis H64 : 64 < emax.
Hypothesis Hb : built_regular Hp He m c dims starts steps vals eval.
Hypothesis Hs : each_axis rescaled ks starts starts'.
Hypothesis Hh : each_axis rescaled ks steps steps'.

Lemma reg_accept : exists eval', built_regular Hp He m c dims starts' steps' vals eval'.
Proof using Hb Hs Hh.
  assert (L := each_axis_length _ _ _ _ _ _ Hs). assert (L' := each_axis_length _ _ _ _ _ _ Hh).
  assert (S := steps_same _ _ _ Hh).
  destruct Hb as (I & B).
  assert (I' : reg_input c dims starts' steps' vals) by (unfold reg_input in *; intuition lia).
  destruct m as [|n| |lin|n lin]; destruct B as (s & N & _);
    unfold nr_new, mlr_new, mlrr_new, mcr_new, mcrr_new in N;
    rewrite <- ?(proj2 L), <- ?(proj2 L') in N; rewrite <- S in N;
    (destruct (product c dims) as [nv| |] eqn:Ep; cbn [bind] in N; try discriminate N);
    repeat match type of N with (if ?b then _ else _) = _ =>
      let E := fresh "E" in destruct b eqn:E; [discriminate N|] end.
  - exists (mlr_interp_one o c (mkRegular dims starts' steps' vals)). split; auto. eexists. split; [|reflexivity].
    unfold mlr_new. rewrite Ep. cbn [bind]. rewrite E, E0, E1. reflexivity.
  - exists (mlrr_interp_one o c n (mkRegular dims starts' steps' vals)). split; auto. eexists. split; [|reflexivity].
    unfold mlrr_new. rewrite Ep. cbn [bind]. rewrite E, E0, E1, E2. reflexivity.
  - exists (nr_interp_one o c (mkRegular dims starts' steps' vals)). split; auto. eexists. split; [|reflexivity].
    unfold nr_new, mlr_new. rewrite Ep. cbn [bind]. rewrite E, E0, E1. reflexivity.
  - exists (mcr_interp_one o c (mkCR (mkRegular dims starts' steps' vals) lin)). split; auto. eexists. split; [|reflexivity].
    unfold mcr_new. rewrite Ep. cbn [bind]. rewrite E, E0, E1. reflexivity.
  - exists (mcrr_interp_one o c n (mkCR (mkRegular dims starts' steps' vals) lin)). split; auto. eexists. split; [|reflexivity].
    unfold mcrr_new. rewrite Ep. cbn [bind]. rewrite E, E0, E1, E2. reflexivity.
Qed.

Variables (x x' : list fl) (eval' : list fl -> outcome fl).
Hypothesis Hb' : built_regular Hp He m c dims starts' steps' vals eval'.
Hypothesis Hx : each_axis rescaled ks x x'.
Hypothesis Rg : roomy_axes starts steps dims.
Hypothesis Rg' : roomy_axes starts' steps' dims.
Hypothesis Rx : Forall roomy x.
Hypothesis Rx' : Forall roomy x'.

Lemma reg_same : eval' x' = eval x.
Proof using All.
  assert (Ls := each_axis_length _ _ _ _ _ _ Hs). assert (Lh := each_axis_length _ _ _ _ _ _ Hh).
  assert (Lx := each_axis_length _ _ _ _ _ _ Hx).
  assert (I := proj1 Hb). assert (I' := proj1 Hb').
  assert (Lg : length starts = length dims) by (unfold reg_input in I; lia).
  assert (Room : forall (a h : list fl), roomy_axes a h dims -> length a = length dims -> length h = length dims ->
    forall k, (k < length dims)%nat -> roomy_axis (nth k a (fzero o)) (nth k h (fzero o)) (nth k dims 0)).
  { intros a h R La Lh' k Hk. apply (R k); apply nth_error_nth'; lia. }
  assert (Q : forall k, (k < length dims)%nat ->
    fdiv o (fsub o (nth k x' (fzero o)) (nth k starts' (fzero o))) (nth k steps' (fzero o)) =
    fdiv o (fsub o (nth k x (fzero o)) (nth k starts (fzero o))) (nth k steps (fzero o))).
  { intros k Hk. apply (axis_quotient _ _ _ _ (nth k ks 0)) with (d := nth k dims 0); auto.
    - apply each_axis_nth; auto; lia.
    - apply each_axis_nth; auto; lia.
    - apply each_axis_nth; auto; lia.
    - apply Room; auto; lia.
    - apply Room; auto; lia.
    - apply Forall_nth_lt; auto; lia.
    - apply Forall_nth_lt; auto; lia. }
  assert (T : forall FP (s : regular fl), 1 <= FP -> reg_wf FP s -> r_dims s = dims ->
    forall k, (k < length dims)%nat -> forall fma i, 0 <= i < nth k dims 0 ->
    reg_dtp o fma (nth k starts' (fzero o)) (nth k steps' (fzero o)) (nth k x' (fzero o)) i =
    reg_dtp o fma (nth k starts (fzero o)) (nth k steps (fzero o)) (nth k x (fzero o)) i).
  { intros FP s HF W Es k Hk fma i Hi. destruct W as (_ & _ & _ & W3 & W4). rewrite Es in *.
    assert (Bd := @dims_bound _ _ _ k (@Forall_le_1 _ FP HF W3) W4 Hk).
    apply (axis_node _ _ _ _ (nth k ks 0)) with (d := nth k dims 0); auto; try lia.
    - apply each_axis_nth; auto; lia.
    - apply each_axis_nth; auto; lia.
    - apply each_axis_nth; auto; lia.
    - apply Room; auto; lia.
    - apply Room; auto; lia.
    - apply Forall_nth_lt; auto; lia.
    - apply Forall_nth_lt; auto; lia. }
  destruct Hb as (_ & B). destruct Hb' as (_ & B'). assert (U := usize_B).
  destruct m as [|n| |lin|n lin]; destruct B as (s & N & ->); destruct B' as (s' & N' & ->); unfold nr_new in *.
  - apply mlr_new_inv in N as (W & ->); auto. apply mlr_new_inv in N' as (W' & ->); auto.
    apply same_mlr; cbn [r_dims r_starts r_steps r_vals]; auto; try lia. apply (T 2 _ ltac:(lia) W eq_refl).
  - apply mlrr_new_inv in N as (W & -> & Hm); auto. apply mlrr_new_inv in N' as (W' & -> & Hm'); auto.
    apply same_mlrr; cbn [r_dims r_starts r_steps r_vals]; auto; try lia. apply (T 2 _ ltac:(lia) W eq_refl).
  - apply mlr_new_inv in N as (W & ->); auto. apply mlr_new_inv in N' as (W' & ->); auto.
    apply same_nr; cbn [r_dims r_starts r_steps r_vals]; auto; try lia. apply (T 2 _ ltac:(lia) W eq_refl).
  - apply mcr_new_inv in N as (W & ->); auto. apply mcr_new_inv in N' as (W' & ->); auto.
    assert (K := same_mcr o c (mkCR (mkRegular dims starts steps vals) lin) (mkCR (mkRegular dims starts' steps' vals) lin) x x' U W W').
    cbn [cr_base cr_lin r_dims r_starts r_steps r_vals] in K. apply K; auto; try lia. apply (T 4 _ ltac:(lia) W eq_refl).
  - apply mcrr_new_inv in N as (W & -> & Hm); auto. apply mcrr_new_inv in N' as (W' & -> & Hm'); auto.
    assert (K := same_mcr o c (mkCR (mkRegular dims starts steps vals) lin) (mkCR (mkRegular dims starts' steps' vals) lin) x x' U W W').
    cbn [cr_base cr_lin r_dims r_starts r_steps r_vals] in K. apply K; auto; try lia. apply (T 4 _ ltac:(lia) W eq_refl).
Qed.
End Reg.

Theorem C71_proof_rectilinear m c ks (grids grids' : list (list fl)) vals eval : 3 <= emax ->
  built_rectilinear Hp He m c grids vals eval ->
  each_axis (fun k => Forall2 (rescaled k)) ks grids grids' ->
  Forall (Forall moderate) grids -> Forall (Forall moderate) grids' ->
  (exists eval', built_rectilinear Hp He m c grids' vals eval') /\
  forall eval' x x', built_rectilinear Hp He m c grids' vals eval' -> each_axis rescaled ks x x' ->
  Forall moderate x -> Forall moderate x' -> eval' x' = eval x.
Proof.
  intros H3 Hb Hg M M'. split; [eapply rect_accept; eauto|]. intros eval' x x' Hb' Hx Mx Mx'.
  apply (rect_same m c ks grids grids' vals eval); auto.
Qed.
Theorem C71_proof_regular m c ks dims (starts steps starts' steps' : list fl) vals eval : 64 < emax ->
  built_regular Hp He m c dims starts steps vals eval ->
  each_axis rescaled ks starts starts' -> each_axis rescaled ks steps steps' ->
  roomy_axes starts steps dims -> roomy_axes starts' steps' dims ->
  (exists eval', built_regular Hp He m c dims starts' steps' vals eval') /\
  forall eval' x x', built_regular Hp He m c dims starts' steps' vals eval' -> each_axis rescaled ks x x' ->
  Forall roomy x -> Forall roomy x' -> eval' x' = eval x.
Proof.
  intros H3 Hb Hs Hh M M'. split; [eapply reg_accept; eauto|]. intros eval' x x' Hb' Hx Mx Mx'.
  apply (reg_same m c ks dims starts steps starts' steps' vals eval); auto.
Qed.
End B.
