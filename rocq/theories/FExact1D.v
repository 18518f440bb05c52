(** One-dimensional linear interpolation of dyadic data makes no rounding error. *)
From Coq Require Import Reals Lra Lia List Bool ZifyBool ZifyNat PeanoNat.
From Flocq Require Import Core.Core IEEE754.BinarySingleNaN.
From Verif Require Import Base Ops RInst FInst ModelCore ModelOneDim Spec SpecOrder SpecReal SpecIEEE Spec1D SpecExact.
From Verif Require Import CoreLemmas SearchLemmas MethodLemmas MethodChar OrderLemmas RChar FLemmas FProofs FProofs2 FError F1D FExact OneDimProofs OneDimMaps.
Import ListNotations.
Unset Implicit Arguments.
Open Scope list_scope.
Open Scope R_scope.

Section B.
Variables prec emax : Z.
Context (Hp : Prec_gt_0 prec) (He : Prec_lt_emax prec emax).
Notation fl := (binary_float prec emax).
Notation o := (BOps Hp He).
Notation emin := (3 - emax - prec)%Z.
Notation fin x := (is_finite x = true).
Notation rnd := (rnd prec emax).

Lemma line_exact c a b g q e (u v x y0 y1 : fl) ex : (0 <= a)%Z -> (0 <= b)%Z ->
  fin u -> fin v -> fin x -> fin y0 -> fin y1 -> (emin <= q)%Z -> (e <= q + b)%Z ->
  whole (bpow radix2 q) (B2R u) -> whole (bpow radix2 q) (B2R v) -> whole (bpow radix2 q) (B2R x) ->
  B2R v - B2R u = bpow radix2 e -> (e < emax)%Z -> B2R u <= B2R x <= B2R v ->
  whole (bpow radix2 g) (B2R y0) -> whole (bpow radix2 g) (B2R y1) ->
  Rabs (B2R y0) <= bpow radix2 (g + a) -> Rabs (B2R y1) <= bpow radix2 (g + a) ->
  (a + 1 + b <= prec)%Z -> (emin <= g - b)%Z -> (g + a + 1 < emax)%Z -> (emin <= g - e)%Z -> (g + a + 1 - e < emax)%Z ->
  let r := line_through o c (mkSample u y0 v y1 ex) x in
  fin r /\ B2R r = B2R y0 + (B2R y1 - B2R y0) / (B2R v - B2R u) * (B2R x - B2R u).
Proof using Hp He.
  intros Ha Hb Fu Fv Fx F0 F1 Lq Le Wu Wv Wx Ee Lm Hx W0 W1 B0 B1 Fit Q O Qe Oe r.
  assert (P := bpow_gt_0 radix2 e). assert (LT : bpow radix2 e < bpow radix2 emax) by (apply bpow_lt; exact Lm).
  assert (X1 : rnd (B2R x - B2R u) = B2R x - B2R u) by (apply (whole_exact prec emax Hp He q e); [apply whole_sub; assumption|rewrite Rabs_pos_eq; lra|exact Lq|lia]).
  assert (X2 : rnd (B2R v - B2R u) = B2R v - B2R u) by (apply (whole_exact prec emax Hp He q e); [apply whole_sub; assumption|rewrite Rabs_pos_eq; lra|exact Lq|lia]).
  destruct (sub_ok prec emax Hp He x u Fx Fu) as (Fd & Vd); [rewrite X1, Rabs_pos_eq; lra|]. rewrite X1 in Vd.
  destruct (sub_ok prec emax Hp He v u Fv Fu) as (Fh & Vh); [rewrite X2, Rabs_pos_eq; lra|]. rewrite X2 in Vh.
  assert (E1 : bpow radix2 (g + a + 1) = 2 * bpow radix2 (g + a)) by (rewrite (Z.add_comm (g + a)), bpow_plus; reflexivity).
  assert (GP := bpow_gt_0 radix2 (g + a)). apply Rabs_le_inv in B0. apply Rabs_le_inv in B1.
  assert (LE : bpow radix2 (g + a + 1) < bpow radix2 emax) by (apply bpow_lt; exact O).
  assert (LE' : bpow radix2 (g + a + 1 - e) < bpow radix2 emax) by (apply bpow_lt; exact Oe).
  assert (Wy := whole_sub _ _ _ W1 W0). set (D := B2R y1 - B2R y0) in *.
  assert (By : Rabs D <= bpow radix2 (g + a + 1)) by (unfold D; apply Rabs_le; lra).
  assert (X3 : rnd D = D) by (apply (whole_exact prec emax Hp He g (g + a + 1)); [exact Wy|exact By|lia|lia]).
  destruct (sub_ok prec emax Hp He y1 y0 F1 F0) as (Fy & Vy); [fold D; rewrite X3; lra|]. fold D in Vy. rewrite X3 in Vy.
  assert (Ed : forall t, t / bpow radix2 e = t * bpow radix2 (- e)) by (intros t; unfold Rdiv; rewrite bpow_opp; reflexivity).
  assert (Pm := bpow_gt_0 radix2 (- e)).
  assert (Ws : whole (bpow radix2 (g - e)) (D / (B2R v - B2R u))).
  { rewrite Ee, Ed. replace (g - e)%Z with (g + - e)%Z by lia. rewrite bpow_plus. apply whole_mul; [exact Wy|apply whole_bpow]. }
  assert (Bs : Rabs (D / (B2R v - B2R u)) <= bpow radix2 (g + a + 1 - e)).
  { rewrite Ee, Ed, Rabs_mult, (Rabs_pos_eq (bpow radix2 (- e))) by lra. replace (g + a + 1 - e)%Z with (g + a + 1 + - e)%Z by lia. rewrite (bpow_plus radix2 (g + a + 1)).
    apply Rmult_le_compat_r; lra. }
  assert (X4 : rnd (D / (B2R v - B2R u)) = D / (B2R v - B2R u)) by (apply (whole_exact prec emax Hp He (g - e) (g + a + 1 - e)); [exact Ws|exact Bs|lia|lia]).
  destruct (div_ok prec emax Hp He (fsub o y1 y0) (fsub o v u) Fy) as (Fs & Vs); [rewrite Vh; lra|rewrite Vy, Vh, X4; lra|]. rewrite Vy, Vh, X4 in Vs.
  set (s := D / (B2R v - B2R u)) in *. set (d := B2R x - B2R u) in *.
  assert (Wd : whole (bpow radix2 q) d) by (apply whole_sub; assumption).
  assert (Wm : whole (bpow radix2 (g - b)) (s * d)).
  { apply (whole_finer _ (g - e + q)); [lia|]. rewrite bpow_plus. apply whole_mul; assumption. }
  set (t := d * bpow radix2 (- e)).
  assert (Ht : 0 <= t <= 1).
  { assert (I : bpow radix2 e * bpow radix2 (- e) = 1) by (rewrite <- bpow_plus, Z.add_opp_diag_r; reflexivity).
    unfold t, d. split; [apply Rmult_le_pos; lra|]. rewrite <- I. apply Rmult_le_compat_r; lra. }
  assert (Em : s * d = t * D) by (unfold s, t; rewrite Ee, Ed; ring).
  assert (Bm : Rabs (s * d) <= bpow radix2 (g + a + 1)).
  { rewrite Em, Rabs_mult, (Rabs_pos_eq t) by lra. rewrite <- (Rmult_1_l (bpow radix2 (g + a + 1))). apply Rmult_le_compat; try lra. apply Rabs_pos. }
  assert (X5 : rnd (s * d) = s * d) by (apply (whole_exact prec emax Hp He (g - b) (g + a + 1)); [exact Wm|exact Bm|lia|lia]).
  assert (Wr : whole (bpow radix2 (g - b)) (B2R y0 + s * d)).
  { apply whole_add; auto. eapply whole_finer; [|exact W0]. lia. }
  assert (Br : Rabs (B2R y0 + s * d) <= bpow radix2 (g + a)).
  { rewrite Em. unfold D. apply Rabs_le. replace (B2R y0 + t * (B2R y1 - B2R y0)) with ((1 - t) * B2R y0 + t * B2R y1) by ring.
    assert (0 <= (1 - t) * (B2R y0 + bpow radix2 (g + a))) by (apply Rmult_le_pos; lra).
    assert (0 <= (1 - t) * (bpow radix2 (g + a) - B2R y0)) by (apply Rmult_le_pos; lra).
    assert (0 <= t * (B2R y1 + bpow radix2 (g + a))) by (apply Rmult_le_pos; lra).
    assert (0 <= t * (bpow radix2 (g + a) - B2R y1)) by (apply Rmult_le_pos; lra). lra. }
  assert (X6 : rnd (B2R y0 + s * d) = B2R y0 + s * d) by (apply (whole_exact prec emax Hp He (g - b) (g + a)); [exact Wr|exact Br|lia|lia]).
  unfold r, line_through. cbn [sx0 sx1 sy0 sy1]. cbv zeta. destruct (use_fma c).
  - destruct (fma_ok prec emax Hp He (fdiv o (fsub o y1 y0) (fsub o v u)) (fsub o x u) y0 Fs Fd F0) as (Fr & Vr); rewrite ?Vs, ?Vd in *;
      rewrite (Rplus_comm (s * d)), X6 in *; [lra|auto].
  - destruct (mul_ok prec emax Hp He (fdiv o (fsub o y1 y0) (fsub o v u)) (fsub o x u) Fs Fd) as (Fm & Vm); [rewrite Vs, Vd, X5; lra|]. rewrite Vs, Vd, X5 in Vm.
    destruct (add_ok prec emax Hp He y0 _ F0 Fm) as (Fr & Vr); rewrite ?Vm, ?X6 in *; [lra|auto].
Qed.

Theorem exact_one_dim c (grid vals : list fl) gr x a b g lo hi : let ax := list_axis (map B2R grid) in
  (zlen vals <= isize_max)%Z -> increasing_grid o grid -> Forall moderate grid -> fin x ->
  c1_new grid vals = Ok gr -> coord ax 0 <= B2R x <= coord ax (npts ax - 1) ->
  (0 <= a)%Z -> (0 <= b)%Z -> dyadic_grid prec emax b grid x -> dyadic_values prec emax a g vals ->
  (forall i, (0 <= i <= npts ax - 2)%Z -> bpow radix2 lo <= coord ax (i + 1) - coord ax i <= bpow radix2 hi) ->
  (a + 1 + b <= prec)%Z -> (emin <= g - b)%Z -> (g + a + 1 < emax)%Z -> (emin <= g - hi)%Z -> (g + a + 1 - lo < emax)%Z ->
  forall c' dom at_, grid1 c' (map B2R vals) ax dom at_ -> dom (B2R x) ->
  exists y, linear1 o c (c1_at o c gr) x = Ok y /\ hold_last1 o c (c1_at o c gr) x = Ok y /\ fin y /\
    linear1 ROps c' at_ (B2R x) = Ok (B2R y).
Proof using Hp He.
  intros ax Hn Hi Hm Fx Hg In Ha Hb (q & Lq & Wx & Wg & Hq) HV HW Fit Q O Qh Ol c' dom at_ M Dx.
  rewrite (hold1_rect_inside prec emax Hp He c grid vals gr x Hn Hi Hm Fx Hg In).
  destruct (rect1_axis prec emax Hp He grid Hi Hm) as (Ia & Na & Ca).
  destruct (rect1_sample prec emax Hp He c grid vals gr x Hn Hi Hm Fx Hg) as (Ez & Hz & Ci & Sa & Sb & e0 & Ea & _).
  fold ax in Ia, Na, Ca, Ci. set (i := clipped_cell o x grid) in *. assert (ZL : Z.of_nat (length grid) = zlen grid) by reflexivity.
  assert (ZV : Z.of_nat (length vals) = zlen vals) by reflexivity.
  assert (Ri : (0 <= i <= zlen grid - 2)%Z) by (rewrite <- Na; apply Ci).
  rewrite (linear_line _ _ _ _ _ _ i M Dx Ci). unfold linear1. rewrite Ea. cbn [bind].
  set (d := fzero o) in *. set (u := nth (Z.to_nat i) grid d) in *. set (v := nth (Z.to_nat (i + 1)) grid d) in *.
  set (y0 := nth (Z.to_nat i) vals d). set (y1 := nth (Z.to_nat (i + 1)) vals d).
  assert (Cu : coord ax i = B2R u) by apply Ca. assert (Cv : coord ax (i + 1) = B2R v) by apply Ca.
  destruct (Forall_nth_lt d HV (k := Z.to_nat i) ltac:(lia)) as (F0 & W0 & B0). fold y0 in F0, W0, B0.
  destruct (Forall_nth_lt d HV (k := Z.to_nat (i + 1)) ltac:(lia)) as (F1 & W1 & B1). fold y1 in F1, W1, B1.
  assert (Wu : whole (bpow radix2 q) (B2R u)) by (apply (Forall_nth_lt d Wg); lia).
  assert (Wv : whole (bpow radix2 q) (B2R v)) by (apply (Forall_nth_lt d Wg); lia).
  destruct (Hq (Z.to_nat i) u v) as (e & Le & Ee).
  { apply nth_error_nth'. lia. } { replace (S (Z.to_nat i)) with (Z.to_nat (i + 1)) by lia. apply nth_error_nth'. lia. }
  assert (Hw := HW i ltac:(lia)). rewrite Cu, Cv, Ee in Hw.
  assert (L1 : (lo <= e)%Z) by (apply (le_bpow radix2); apply Hw). assert (L2 : (e <= hi)%Z) by (apply (le_bpow radix2); apply Hw).
  assert (Lm : (e < emax)%Z).
  { apply (lt_bpow radix2). rewrite <- Ee. destruct Sa as (_ & Su). destruct Sb as (_ & Sv). apply Rabs_le_inv in Su. apply Rabs_le_inv in Sv.
    assert (bpow radix2 (emax - 2) + bpow radix2 (emax - 2) = bpow radix2 (emax - 1)).
    { replace (emax - 1)%Z with (1 + (emax - 2))%Z by lia. rewrite bpow_plus. change (bpow radix2 1) with 2. ring. }
    assert (bpow radix2 (emax - 1) < bpow radix2 emax) by (apply bpow_lt; lia). lra. }
  assert (X : B2R u <= B2R x <= B2R v).
  { rewrite <- Cu, <- Cv. destruct Ci as (_ & C1 & C2). split.
    - destruct C1 as [E|C1]; [rewrite E; apply In|exact C1].
    - destruct C2 as [E|C2]; [|exact C2]. replace (i + 1)%Z with (npts ax - 1)%Z by lia. apply In. }
  destruct (line_exact c a b g q e u v x y0 y1 e0 Ha Hb (proj1 Sa) (proj1 Sb) Fx F0 F1 Lq Le Wu Wv Wx Ee Lm X W0 W1 B0 B1 Fit Q O ltac:(lia) ltac:(lia)) as (Fr & Vr).
  eexists. split; [reflexivity|]. split; [reflexivity|]. split; [exact Fr|]. rewrite Vr. f_equal. unfold line. rewrite Cu, Cv.
  unfold val_at. rewrite !(nth_B2R prec emax Hp He). reflexivity.
Qed.

(** ** Regular grids *)
Lemma exact_node b e (start h : fl) d k : let q := (e - b)%Z in (0 <= b <= prec)%Z -> fin start -> fin h -> B2R h = bpow radix2 e ->
  (emin <= q)%Z -> (prec + q < emax)%Z -> whole (bpow radix2 q) (B2R start) -> Rabs (B2R start) <= bpow radix2 (prec + q) ->
  Rabs (B2R start + B2R h * IZR (d - 1)) <= bpow radix2 (prec + q) -> (d - 1 <= 2 ^ (prec - b))%Z -> (0 <= k <= d - 1)%Z ->
  let u := fadd o start (fmul o h (uf o k)) in
  fin u /\ B2R u = B2R start + bpow radix2 e * IZR k /\ whole (bpow radix2 q) (B2R u) /\ Rabs (B2R u) <= bpow radix2 (prec + q).
Proof using Hp He.
  intros q Hb Fs Fh Vh Lq Hq Ws Bs Bl Dp Hk u. rewrite Vh in Bl. set (s := B2R start) in *.
  assert (B0 := bpow_gt_0 radix2 e). assert (LT : bpow radix2 (prec + q) < bpow radix2 emax) by (apply bpow_lt; exact Hq).
  assert (ID : IZR (d - 1) <= bpow radix2 (prec - b)).
  { rewrite <- IZR_Zpower by lia. apply IZR_le. exact Dp. }
  assert (LS : bpow radix2 e * IZR (d - 1) <= bpow radix2 (prec + q)).
  { replace (prec + q)%Z with (e + (prec - b))%Z by (unfold q; lia). rewrite bpow_plus. apply Rmult_le_compat_l; lra. }
  assert (P2b : (2 ^ (prec - b) <= 2 ^ prec)%Z) by (apply Z.pow_le_mono_r; lia).
  destruct (of_usize_some Hp He k) as (n & En). destruct (of_usize_spec En) as (Fn & Vn); [lia|].
  assert (I0r : 0 <= IZR k) by (apply IZR_le; lia). assert (Id : IZR k <= IZR (d - 1)) by (apply IZR_le; lia).
  assert (Wm : whole (bpow radix2 e) (bpow radix2 e * IZR k)) by (exists k; ring).
  assert (Am : 0 <= bpow radix2 e * IZR k <= bpow radix2 e * IZR (d - 1)) by (split; [apply Rmult_le_pos; lra|apply Rmult_le_compat_l; lra]).
  assert (Xm : rnd (bpow radix2 e * IZR k) = bpow radix2 e * IZR k).
  { apply (whole_exact prec emax Hp He e (prec + q)); [exact Wm|rewrite Rabs_pos_eq; lra|unfold q in *; lia|unfold q; lia]. }
  assert (Wa : whole (bpow radix2 q) (s + bpow radix2 e * IZR k)).
  { apply whole_add; [exact Ws|]. eapply whole_finer; [|exact Wm]. unfold q; lia. }
  assert (Aa : Rabs (s + bpow radix2 e * IZR k) <= bpow radix2 (prec + q)).
  { apply Rabs_le_inv in Bs. apply Rabs_le_inv in Bl. apply Rabs_le. lra. }
  assert (Xa : rnd (s + bpow radix2 e * IZR k) = s + bpow radix2 e * IZR k) by (eapply whole_exact; [exact Hp|exact He|exact Wa|exact Aa|lia|lia]).
  unfold u, uf. rewrite En.
  destruct (mul_ok prec emax Hp He h n Fh Fn) as (Fm & Vm); [rewrite Vh, Vn, Xm, Rabs_pos_eq; lra|]. rewrite Vh, Vn, Xm in Vm.
  destruct (add_ok prec emax Hp He start (fmul o h n) Fs Fm) as (Fa & Va); rewrite ?Vm in *; fold s; [rewrite Xa; lra|]. fold s in Va. rewrite Xa in Va.
  rewrite Va. auto.
Qed.
Theorem exact_one_dim_regular c (start h x : fl) vals gr a b g e : let ax := mkAxis (zlen vals) (fun i => B2R start + B2R h * IZR i) in
  (2 <= prec <= 62)%Z -> (2 <= zlen vals <= isize_max)%Z -> r1_new o c start h vals = Ok gr ->
  (0 <= a)%Z -> (0 <= b)%Z -> dyadic_axis prec emax b start h x (zlen vals) -> dyadic_values prec emax a g vals -> B2R h = bpow radix2 e ->
  (a + 1 + b <= prec)%Z -> (emin <= g - b)%Z -> (g + a + 1 < emax)%Z -> (emin <= g - e)%Z -> (g + a + 1 - e < emax)%Z ->
  forall c' dom at_, grid1 c' (map B2R vals) ax dom at_ -> dom (B2R x) ->
  exists y, linear1 o c (r1_at o c gr) x = Ok y /\ hold_last1 o c (r1_at o c gr) x = Ok y /\ fin y /\
    linear1 ROps c' at_ (B2R x) = Ok (B2R y).
Proof using Hp He.
  intros ax P2 Hn Hg Ha Hb DA HV Vh Fit Q O Qe Oe c' dom at_ M Dx. assert (DA' := DA).
  destruct (exact_position prec emax Hp He b false start h x (zlen vals) P2 Hb ltac:(lia) DA) as (i & Ec & Ri & _ & Vt & Rt & _). rewrite Vt in Rt. clear Vt.
  destruct DA' as (Fs & Fh & Fx & e' & H). cbv zeta in H. destruct H as (Vh' & Lq & Hq & Ws & Wx & Hx & Bs & Bl & Dp).
  assert (e' = e). { apply (bpow_inj radix2). rewrite <- Vh, <- Vh'. reflexivity. } subst e'.
  set (n := zlen vals) in *. assert (ZV : Z.of_nat (length vals) = n) by reflexivity. set (d := fzero o).
  assert (B0 := bpow_gt_0 radix2 e).
  assert (Node := fun k => exact_node b e start h n k ltac:(lia) Fs Fh Vh Lq Hq Ws Bs Bl Dp). cbv zeta in Node.
  destruct (Node i ltac:(lia)) as (Fu & Vu & Wu & Bu). destruct (Node (n - 1)%Z ltac:(lia)) as (Fl & Vl & _ & _).
  set (u := fadd o start (fmul o h (uf o i))) in *. set (stop := fadd o start (fmul o h (uf o (n - 1)))) in *.
  (* the upper node *)
  destruct (Node (i + 1)%Z ltac:(lia)) as (_ & Vn & Wn & Bn). rewrite Vn in Wn, Bn. rewrite plus_IZR in Wn, Bn. clear Vn.
  assert (Ev : B2R u + B2R h = B2R start + bpow radix2 e * (IZR i + 1)) by (rewrite Vu, Vh; ring).
  assert (Xv : rnd (B2R u + B2R h) = B2R u + B2R h).
  { rewrite Ev. apply (whole_exact prec emax Hp He (e - b) (prec + (e - b))); [exact Wn|exact Bn|exact Lq|lia]. }
  assert (LT : bpow radix2 (prec + (e - b)) < bpow radix2 emax) by (apply bpow_lt; exact Hq).
  destruct (add_ok prec emax Hp He u h Fu Fh) as (Fv & Vv); [rewrite Xv, Ev; lra|]. rewrite Xv in Vv.
  set (v := fadd o u h) in *.
  assert (Eg : gr = mkR1 start stop h vals).
  { unfold r1_new in Hg. rewrite usize_sub_ok in Hg by (unfold isize_max, two64 in *; lia). cbn [bind] in Hg. fold n in Hg.
    unfold stop, uf. destruct (of_usize o (n - 1)) as [mf|]; cbn [ok_or bind] in Hg; [congruence|discriminate]. }
  assert (NL : flt o x start = false).
  { destruct (flt o x start) eqn:C; auto. apply (ltb_fin Hp He) in C; auto. lra. }
  assert (NH : flt o stop x = false).
  { destruct (flt o stop x) eqn:C; auto. apply (ltb_fin Hp He) in C; auto. rewrite Vl in C. rewrite Vh in Hx. lra. }
  set (y0 := nth (Z.to_nat i) vals d). set (y1 := nth (Z.to_nat (i + 1)) vals d).
  assert (EA : r1_at o c gr x = Ok (mkSample u y0 v y1 Inside)).
  { unfold reg_cell in Ec. unfold r1_at, r1_index. subst gr. cbn [r1_start r1_step r1_stop r1_vals].
    destruct (to_isize o (ffloor o (fdiv o (fsub o x start) h))) as [z|]; cbn [ok_or bind] in Ec |- *; [|discriminate].
    injection Ec as Ec. fold n. rewrite usize_sub_ok by (unfold isize_max, two64 in *; lia). cbn [bind].
    rewrite as_isize_small by lia. rewrite Ec, NL, NH. unfold as_usize. rewrite Z.mod_small by (unfold isize_max, two64 in *; lia). cbn [bind].
    unfold v, u, uf. destruct (@of_usize_some prec emax Hp He i) as (fi & Ef). rewrite Ef. cbn [ok_or bind].
    rewrite (idx_nth _ d) by lia. cbn [bind].
    rewrite usize_add_ok by (unfold isize_max, two64 in *; lia). cbn [bind].
    rewrite (idx_nth _ d) by lia. reflexivity. }
  destruct (Forall_nth_lt d HV (k := Z.to_nat i) ltac:(lia)) as (F0 & W0 & D0). fold y0 in F0, W0, D0.
  destruct (Forall_nth_lt d HV (k := Z.to_nat (i + 1)) ltac:(lia)) as (F1 & W1 & D1). fold y1 in F1, W1, D1.
  rewrite Vh in Rt. set (X := B2R x) in *.
  assert (Rx : IZR i * bpow radix2 e <= X - B2R start <= (IZR i + 1) * bpow radix2 e).
  { set (w := (X - B2R start) / bpow radix2 e) in *. assert (Xw : X - B2R start = w * bpow radix2 e) by (unfold w; field; lra).
    rewrite Xw. split; apply Rmult_le_compat_r; lra. }
  assert (Xuv : B2R u <= X <= B2R v) by (rewrite Vv, Ev, Vu; lra).
  assert (Lm : (e < emax)%Z).
  { apply (lt_bpow radix2). apply Rle_lt_trans with (2 := LT). apply bpow_le. lia. }
  destruct (line_exact c a b g (e - b) e u v x y0 y1 Inside Ha Hb Fu Fv Fx F0 F1 Lq ltac:(lia) Wu ltac:(rewrite Vv, Ev; exact Wn) Wx
    ltac:(rewrite Vv, Vh; ring) Lm Xuv W0 W1 D0 D1 Fit Q O Qe Oe) as (Fr & Vr).
  assert (C : in_cell ax X i).
  { split; [exact Ri|]. unfold ax. cbn [coord]. rewrite Vh, plus_IZR. split; right; lra. }
  rewrite (linear_line _ _ _ _ _ _ i M Dx C). unfold hold_last1, linear1. rewrite EA. cbn [bind sextrap].
  eexists. split; [reflexivity|]. split; [reflexivity|]. split; [exact Fr|]. rewrite Vr, Vv, Ev, Vu. f_equal. unfold line, ax. cbn [coord].
  unfold val_at. rewrite !(nth_B2R prec emax Hp He). fold d y0 y1. rewrite Vh, plus_IZR. reflexivity.
Qed.
End B.
