(** Floating-point multilinear interpolation without rounding. *)
From Coq Require Import Reals Lra Lia List Bool ZifyBool ZifyNat PeanoNat String.
From Flocq Require Import Core.Core IEEE754.BinarySingleNaN.
From Verif Require Import Base Ops RInst FInst ModelCore ModelLinear ModelPython Spec SpecOrder SpecReal SpecIEEE Interpolators SpecPython SpecDetect SpecExact.
From Verif Require Import CoreLemmas TensorLemmas MethodLemmas SearchLemmas MethodChar GenLemmas GenProofs OrderLemmas OrderProofs R1D RTensor RChar REval RProofs FLemmas UtilProofs FProofs FProofs2 FError FError2 FSign FPython.
Import ListNotations.
Unset Implicit Arguments.
Open Scope string_scope.
Open Scope list_scope.
Open Scope R_scope.

(** ** Whole multiples *)
Lemma whole_0 u : whole u 0. Proof. exists 0%Z. simpl. ring. Qed.
Lemma whole_add u r s : whole u r -> whole u s -> whole u (r + s).
Proof. intros (m & ->) (n & ->). exists (m + n)%Z. rewrite plus_IZR. ring. Qed.
Lemma whole_sub u r s : whole u r -> whole u s -> whole u (r - s).
Proof. intros (m & ->) (n & ->). exists (m - n)%Z. rewrite minus_IZR. ring. Qed.
Lemma whole_mul u v r s : whole u r -> whole v s -> whole (u * v) (r * s).
Proof. intros (m & ->) (n & ->). exists (m * n)%Z. rewrite mult_IZR. ring. Qed.
Lemma whole_finer p q r : (p <= q)%Z -> whole (bpow radix2 q) r -> whole (bpow radix2 p) r.
Proof.
  intros H (n & ->). exists (n * 2 ^ (q - p))%Z. rewrite mult_IZR. change 2%Z with (radix_val radix2). rewrite IZR_Zpower by lia.
  rewrite Rmult_assoc, <- bpow_plus. do 2 f_equal. lia.
Qed.
Lemma whole_IZR i : whole (bpow radix2 0) (IZR i).
Proof. exists i. simpl. ring. Qed.
Lemma whole_bpow p : whole (bpow radix2 p) (bpow radix2 p).
Proof. exists 1%Z. ring. Qed.

Section B.
Variables prec emax : Z.
Context (Hp : Prec_gt_0 prec) (He : Prec_lt_emax prec emax).
Notation fl := (binary_float prec emax).
Notation o := (BOps Hp He).
Notation emin := (3 - emax - prec)%Z.
Notation fin x := (is_finite x = true).
Notation rnd := (rnd prec emax).
Notation fexp := (FLT_exp emin prec).

Lemma whole_exact q p r : whole (bpow radix2 q) r -> Rabs r <= bpow radix2 p -> (emin <= q)%Z -> (p - q <= prec)%Z -> rnd r = r.
Proof using Hp He.
  intros (n & E) B Q P. unfold FLemmas.rnd. apply round_generic; [typeclasses eauto|].
  assert (Bn : Rabs (IZR n) <= bpow radix2 (p - q)).
  { apply Rmult_le_reg_r with (bpow radix2 q); [apply bpow_gt_0|]. rewrite <- bpow_plus. replace (p - q + q)%Z with p by lia.
    rewrite <- (Rabs_pos_eq (bpow radix2 q)) by apply bpow_ge_0. rewrite <- Rabs_mult, <- E. exact B. }
  assert (Bm : Rabs (IZR n) <= bpow radix2 prec) by (eapply Rle_trans; [exact Bn|apply bpow_le; lia]).
  destruct (Rle_lt_or_eq_dec _ _ Bm) as [L|L].
  - apply generic_format_FLT. exists (Float radix2 n q); [exact E| |exact Q].
    cbn [Fnum]. apply lt_IZR. rewrite <- IZR_Zpower in L by (unfold Prec_gt_0 in Hp; lia). rewrite abs_IZR. exact L.
  - assert (F : generic_format radix2 fexp (bpow radix2 (prec + q))).
    { apply generic_format_bpow. unfold FLT_exp. unfold Prec_gt_0 in Hp. lia. }
    rewrite E. unfold Rabs in L. destruct (Rcase_abs (IZR n)).
    + replace (IZR n * bpow radix2 q) with (- bpow radix2 (prec + q)); [apply generic_format_opp; exact F|]. rewrite bpow_plus, <- L. ring.
    + rewrite L, <- bpow_plus. exact F.
Qed.

(** ** One linear step *)
Lemma lin_exact c G B b (t y0 y1 : fl) : fin t -> fin y0 -> fin y1 -> 0 <= B2R t <= 1 -> (0 <= b)%Z ->
  whole (bpow radix2 (- b)) (B2R t) -> whole (bpow radix2 G) (B2R y0) -> whole (bpow radix2 G) (B2R y1) ->
  Rabs (B2R y0) <= bpow radix2 B -> Rabs (B2R y1) <= bpow radix2 B ->
  (emin <= G - b)%Z -> (B + 1 - (G - b) <= prec)%Z -> (B + 1 < emax)%Z ->
  let v := lin_nd o c t [y0; y1] in fin v /\ B2R v = B2R y0 + B2R t * (B2R y1 - B2R y0) /\
  whole (bpow radix2 (G - b)) (B2R v) /\ Rabs (B2R v) <= bpow radix2 B.
Proof using Hp He.
  intros Ft F0 F1 Ht Hb Wt W0 W1 B0 B1 Q P O v.
  assert (E1 : bpow radix2 (B + 1) = 2 * bpow radix2 B) by (rewrite Z.add_comm, bpow_plus; reflexivity).
  assert (LE : bpow radix2 (B + 1) < bpow radix2 emax) by (apply bpow_lt; exact O).
  assert (BP := bpow_gt_0 radix2 B). apply Rabs_le_inv in B0. apply Rabs_le_inv in B1.
  assert (Wd := whole_sub _ _ _ W1 W0). assert (Bd : Rabs (B2R y1 - B2R y0) <= bpow radix2 (B + 1)) by (apply Rabs_le; lra).
  assert (Xd : rnd (B2R y1 - B2R y0) = B2R y1 - B2R y0) by (eapply whole_exact; [exact Wd|exact Bd|lia|lia]).
  destruct (sub_ok prec emax Hp He y1 y0 F1 F0) as (Fd & Vd); [rewrite Xd; lra|]. rewrite Xd in Vd.
  assert (Wm : whole (bpow radix2 (G - b)) (B2R t * (B2R y1 - B2R y0))).
  { replace (G - b)%Z with (- b + G)%Z by lia. rewrite bpow_plus. apply whole_mul; auto. }
  assert (Bm : Rabs (B2R t * (B2R y1 - B2R y0)) <= bpow radix2 (B + 1)).
  { rewrite Rabs_mult, (Rabs_pos_eq (B2R t)) by lra. rewrite <- (Rmult_1_l (bpow radix2 (B + 1))). apply Rmult_le_compat; try lra. apply Rabs_pos. }
  assert (Xm : rnd (B2R t * (B2R y1 - B2R y0)) = B2R t * (B2R y1 - B2R y0)) by (eapply whole_exact; [exact Wm|exact Bm|lia|lia]).
  assert (Wr : whole (bpow radix2 (G - b)) (B2R y0 + B2R t * (B2R y1 - B2R y0))).
  { apply whole_add; auto. eapply whole_finer; [|exact W0]. lia. }
  assert (Br : Rabs (B2R y0 + B2R t * (B2R y1 - B2R y0)) <= bpow radix2 B).
  { apply Rabs_le. replace (B2R y0 + B2R t * (B2R y1 - B2R y0)) with ((1 - B2R t) * B2R y0 + B2R t * B2R y1) by ring.
    assert (0 <= (1 - B2R t) * (B2R y0 + bpow radix2 B)) by (apply Rmult_le_pos; lra).
    assert (0 <= (1 - B2R t) * (bpow radix2 B - B2R y0)) by (apply Rmult_le_pos; lra).
    assert (0 <= B2R t * (B2R y1 + bpow radix2 B)) by (apply Rmult_le_pos; lra).
    assert (0 <= B2R t * (bpow radix2 B - B2R y1)) by (apply Rmult_le_pos; lra). lra. }
  assert (Xr : rnd (B2R y0 + B2R t * (B2R y1 - B2R y0)) = B2R y0 + B2R t * (B2R y1 - B2R y0)) by (eapply whole_exact; [exact Wr|exact Br|lia|lia]).
  assert (Goal : fin v /\ B2R v = B2R y0 + B2R t * (B2R y1 - B2R y0)).
  { unfold v, lin_nd. cbv zeta. destruct (use_fma c).
    - destruct (fma_ok prec emax Hp He t (fsub o y1 y0) y0 Ft Fd F0) as (Fv & Vv); rewrite ?Vd in *;
        rewrite (Rplus_comm (B2R t * (B2R y1 - B2R y0))), Xr in *; [lra|auto].
    - destruct (mul_ok prec emax Hp He t (fsub o y1 y0) Ft Fd) as (Fm & Vm); [rewrite Vd, Xm; lra|]. rewrite Vd, Xm in Vm.
      destruct (add_ok prec emax Hp He y0 (fmul o t (fsub o y1 y0)) F0 Fm) as (Fv & Vv); rewrite ?Vm, ?Xr in *; [lra|auto]. }
  destruct Goal as (Fv & Vv). rewrite Vv. auto.
Qed.

(** ** All axes *)
Section Tens.
Variables (c : cfg) (dims os : list Z) (Vh : list Z -> fl) (Ls : list ((Z -> R) -> R)) (th : nat -> fl) (a b g : Z).
Notation N := (length dims).
Hypothesis Hb : (0 <= b)%Z.
Hypothesis HLs : lfs dims Ls.
Hypothesis HV : forall idx, fin (Vh idx) /\ whole (bpow radix2 g) (B2R (Vh idx)) /\ Rabs (B2R (Vh idx)) <= bpow radix2 (g + a).
Hypothesis Hth : forall k, (k < N)%nat -> fin (th k) /\ 0 <= B2R (th k) <= 1 /\ whole (bpow radix2 (- b)) (B2R (th k)).
Hypothesis Hpiece : forall k f, (k < N)%nat ->
  nth k Ls (fun _ => 0) f = f (nth k os 0%Z) + B2R (th k) * (f (nth k os 0 + 1)%Z - f (nth k os 0%Z)).
Hypothesis Hfit : (a + 1 + Z.of_nat N * b <= prec)%Z.
Hypothesis Hlow : (emin <= g - Z.of_nat N * b)%Z.
Hypothesis Hhigh : (g + a + 1 < emax)%Z.

Lemma tens_exact k suf : (k <= N)%nat -> let v := tens 2 Vh (fun j => lin_nd o c (th j)) os k suf in
  fin v /\ B2R v = tenL (firstn k Ls) (fun idx => B2R (Vh (idx ++ suf))) /\
  whole (bpow radix2 (g - Z.of_nat k * b)) (B2R v) /\ Rabs (B2R v) <= bpow radix2 (g + a).
Proof using All.
  assert (LL : length Ls = N) by (symmetry; apply (Forall2_len _ _ _ _ _ HLs)).
  revert suf. induction k as [|k IH]; intros suf Hk.
  { cbn [tens firstn tenL app]. destruct (HV suf) as (F & W & B). replace (g - Z.of_nat 0 * b)%Z with g by lia. auto. }
  assert (HLk : lfs (firstn k dims) (firstn k Ls)) by (apply Forall2_firstn; exact HLs).
  assert (HL : lf (nth k dims 0%Z) (nth k Ls (fun _ => 0))) by (apply (Forall2_nth_lt _ _ _ _ _ k 0%Z (fun _ => 0) HLs); lia).
  assert (E : firstn (S k) Ls = firstn k Ls ++ [nth k Ls (fun _ => 0)]).
  { clear - Hk LL. rewrite <- LL in Hk. clear LL. revert k Hk. induction Ls as [|L Ls' IH]; intros k Hk; simpl in *; [lia|].
    destruct k; auto. simpl. f_equal. apply IH. lia. }
  rewrite E, (tenL_snoc _ HLk HL). cbn [tens seq map].
  set (z := nth k os 0%Z).
  change (Z.of_nat 0) with 0%Z. change (Z.of_nat 1) with 1%Z. rewrite Z.add_0_r.
  assert (Eg : forall i, tenL (firstn k Ls) (fun idx => B2R (Vh ((idx ++ [i]) ++ suf))) = tenL (firstn k Ls) (fun idx => B2R (Vh (idx ++ i :: suf)))).
  { intros i. apply (tenL_ext _ _ HLk). intros idx _. rewrite <- app_assoc. reflexivity. }
  destruct (IH (z :: suf) ltac:(lia)) as (F0 & E0 & W0 & B0). destruct (IH ((z + 1)%Z :: suf) ltac:(lia)) as (F1 & E1 & W1 & B1).
  destruct (Hth k ltac:(lia)) as (Ft & Rt & Wt). cbv zeta.
  assert (KN : (0 <= Z.of_nat k * b <= Z.of_nat N * b - b)%Z) by nia.
  destruct (lin_exact c (g - Z.of_nat k * b) (g + a) b (th k) _ _ Ft F0 F1 Rt Hb Wt W0 W1 B0 B1 ltac:(lia) ltac:(lia) Hhigh) as (F & V & W & B).
  split; [exact F|]. split; [|split; [|exact B]].
  - rewrite V, E0, E1. rewrite (Hpiece k) by lia. fold z. rewrite !Eg. reflexivity.
  - replace (g - Z.of_nat (S k) * b)%Z with (g - Z.of_nat k * b - b)%Z by lia. exact W.
Qed.
End Tens.

(** ** Positions on a regular axis *)
Lemma exact_position b fma (start h x : fl) d : (2 <= prec <= 62)%Z -> (0 <= b)%Z -> (2 <= d)%Z -> dyadic_axis prec emax b start h x d ->
  exists i, reg_cell o start h d x = Ok i /\ (0 <= i <= d - 2)%Z /\ let t := reg_dtp o fma start h x i in
  fin t /\ B2R t = (B2R x - B2R start) / B2R h - IZR i /\ 0 <= B2R t <= 1 /\ whole (bpow radix2 (- b)) (B2R t).
Proof using Hp He.
  intros P2 Hb D2 (Fs & Fh & Fx & e & H). cbv zeta in H. destruct H as (Vh & Lq & Hq & Ws & Wx & Hx & Bs & Bl & Dp). rewrite Vh in *.
  assert (Bp : (b <= prec)%Z).
  { destruct (Z_le_gt_dec b prec) as [|C]; auto. rewrite Z.pow_neg_r in Dp by lia. lia. }
  assert (Ep : (3 <= emax)%Z) by (unfold Prec_lt_emax in He; lia).
  set (q := (e - b)%Z) in *. assert (B0 := bpow_gt_0 radix2 e).
  assert (ID : IZR (d - 1) <= bpow radix2 (prec - b)).
  { rewrite <- IZR_Zpower by lia. apply IZR_le. exact Dp. }
  assert (LS : bpow radix2 e * IZR (d - 1) <= bpow radix2 (prec + q)).
  { replace (prec + q)%Z with (e + (prec - b))%Z by (unfold q; lia). rewrite bpow_plus. apply Rmult_le_compat_l; lra. }
  assert (LT : bpow radix2 (prec + q) < bpow radix2 emax) by (apply bpow_lt; exact Hq).
  set (s := B2R start) in *. set (X := B2R x) in *.
  assert (W1 := whole_sub _ _ _ Wx Ws).
  assert (A1 : Rabs (X - s) <= bpow radix2 (prec + q)) by (rewrite Rabs_pos_eq by lra; lra).
  assert (X1 : rnd (X - s) = X - s) by (eapply whole_exact; [exact W1|exact A1|lia|lia]).
  destruct (sub_ok prec emax Hp He x start Fx Fs) as (F1 & V1); [change (Rabs (rnd (X - s)) < bpow radix2 emax); rewrite X1; lra|].
  change (B2R (fsub o x start) = rnd (X - s)) in V1. rewrite X1 in V1.
  set (w := (X - s) / bpow radix2 e).
  assert (Xw : X - s = w * bpow radix2 e) by (unfold w; field; lra).
  assert (Ww : whole (bpow radix2 (- b)) w).
  { destruct W1 as (n & E). exists n. unfold w. rewrite E. replace (- b)%Z with (q + - e)%Z by (unfold q; lia). rewrite bpow_plus, bpow_opp. unfold Rdiv. ring. }
  assert (W0 : 0 <= w) by (apply Rmult_le_pos; [lra|left; apply Rinv_0_lt_compat; lra]).
  assert (Wd : w <= IZR (d - 1)) by (apply Rmult_le_reg_r with (bpow radix2 e); [lra|]; rewrite <- Xw; lra).
  assert (Xr : rnd w = w).
  { apply (whole_exact (- b) (prec - b)); [exact Ww|rewrite Rabs_pos_eq; lra|lia|lia]. }
  assert (PE : bpow radix2 (prec - b) < bpow radix2 emax) by (apply bpow_lt; unfold Prec_lt_emax in He; lia).
  destruct (div_ok prec emax Hp He (fsub o x start) h F1) as (F2 & V2); [lra|rewrite V1, Vh; fold w; rewrite Xr, Rabs_pos_eq by auto; lra|].
  rewrite V1, Vh in V2. fold w in V2. rewrite Xr in V2.
  assert (T : to_isize o (ffloor o (fdiv o (fsub o x start) h)) = Some (Zfloor w)).
  { rewrite <- V2. apply (to_isize_fits prec emax Hp He); auto. rewrite V2. split.
    - apply Rle_trans with 0; [|exact W0]. rewrite <- opp_IZR. apply IZR_le. lia.
    - eapply Rle_lt_trans; [exact Wd|]. apply IZR_lt. assert (2 ^ (prec - b) <= 2 ^ 62)%Z by (apply Z.pow_le_mono_r; lia). lia. }
  unfold reg_cell. rewrite T. cbn [ok_or bind]. eexists. split; [reflexivity|].
  set (i := Z.min (Z.max (Zfloor w) 0) (d - 2)).
  assert (FL0 : (0 <= Zfloor w)%Z) by (apply Zfloor_lub; exact W0).
  assert (FLd : (Zfloor w <= d - 1)%Z) by (apply le_IZR; eapply Rle_trans; [apply Zfloor_lb|exact Wd]).
  assert (I0 : (0 <= i <= d - 2)%Z) by (unfold i; lia).
  assert (Iw : IZR i <= w) by (apply Rle_trans with (IZR (Zfloor w)); [apply IZR_le; unfold i; lia|apply Zfloor_lb]).
  assert (Iw' : w <= IZR i + 1).
  { destruct (Z.eq_dec (Zfloor w) (d - 1)) as [Q|Q].
    - replace i with (d - 2)%Z by (unfold i; lia). rewrite <- plus_IZR. replace (d - 2 + 1)%Z with (d - 1)%Z by lia. exact Wd.
    - replace i with (Zfloor w) by (unfold i; lia). left. apply Zfloor_ub. }
  clearbody i. split; [exact I0|].
  assert (P2b : (2 ^ (prec - b) <= 2 ^ prec)%Z) by (apply Z.pow_le_mono_r; lia).
  destruct (of_usize_some Hp He i) as (n & En). destruct (of_usize_spec En) as (Fn & Vn); [lia|].
  assert (I0r : 0 <= IZR i) by (apply IZR_le; lia).
  assert (Id : IZR i <= IZR (d - 1)) by (apply IZR_le; lia).
  (* the node *)
  assert (Wm : whole (bpow radix2 e) (bpow radix2 e * IZR i)) by (exists i; ring).
  assert (Am : 0 <= bpow radix2 e * IZR i <= bpow radix2 e * IZR (d - 1)) by (split; [apply Rmult_le_pos; lra|apply Rmult_le_compat_l; lra]).
  assert (Xm : rnd (bpow radix2 e * IZR i) = bpow radix2 e * IZR i).
  { apply (whole_exact e (prec + q)); [exact Wm|rewrite Rabs_pos_eq; lra|lia|unfold q; lia]. }
  assert (Wa : whole (bpow radix2 q) (s + bpow radix2 e * IZR i)).
  { apply whole_add; [exact Ws|]. eapply whole_finer; [|exact Wm]. unfold q; lia. }
  assert (Aa : Rabs (s + bpow radix2 e * IZR i) <= bpow radix2 (prec + q)).
  { apply Rabs_le_inv in Bs. apply Rabs_le_inv in Bl. apply Rabs_le. lra. }
  assert (Xa : rnd (s + bpow radix2 e * IZR i) = s + bpow radix2 e * IZR i) by (eapply whole_exact; [exact Wa|exact Aa|lia|lia]).
  assert (N : exists a, (if fma then fmuladd o h n start else fadd o start (fmul o h n)) = a /\ fin a /\ B2R a = s + bpow radix2 e * IZR i).
  { destruct fma.
    - destruct (fma_ok prec emax Hp He h n start Fh Fn Fs) as (Fa & Va); rewrite ?Vh, ?Vn, (Rplus_comm (bpow radix2 e * IZR i)) in *;
        fold s; [rewrite Xa; lra|]. fold s in Va. rewrite Xa in Va. eauto.
    - destruct (mul_ok prec emax Hp He h n Fh Fn) as (Fm & Vm); [rewrite Vh, Vn, Xm, Rabs_pos_eq; lra|]. rewrite Vh, Vn, Xm in Vm.
      destruct (add_ok prec emax Hp He start (fmul o h n) Fs Fm) as (Fa & Va); rewrite ?Vm in *; fold s; [rewrite Xa; lra|]. fold s in Va. rewrite Xa in Va. eauto. }
  destruct N as (a & Ea & Fa & Va). unfold reg_dtp, uf. rewrite En. rewrite Ea. cbv zeta.
  assert (Ed : X - B2R a = (w - IZR i) * bpow radix2 e) by (rewrite Va; lra).
  assert (Wdd : whole (bpow radix2 q) (X - B2R a)) by (rewrite Va; apply whole_sub; auto).
  assert (Ad : Rabs (X - B2R a) <= bpow radix2 e).
  { rewrite Ed, Rabs_pos_eq by (apply Rmult_le_pos; lra). rewrite <- (Rmult_1_l (bpow radix2 e)) at 2. apply Rmult_le_compat_r; lra. }
  assert (Xd : rnd (X - B2R a) = X - B2R a) by (eapply whole_exact; [exact Wdd|exact Ad|lia|unfold q; lia]).
  assert (Le : bpow radix2 e <= bpow radix2 (prec + q)) by (apply bpow_le; unfold q; lia).
  destruct (sub_ok prec emax Hp He x a Fx Fa) as (Fd & Vd); fold X; [rewrite Xd; lra|]. fold X in Vd. rewrite Xd in Vd.
  assert (Et : B2R (fsub o x a) / B2R h = w - IZR i) by (rewrite Vd, Vh, Ed; field; lra).
  assert (Wt : whole (bpow radix2 (- b)) (w - IZR i)).
  { apply whole_sub; [exact Ww|]. eapply whole_finer; [|apply whole_IZR]. lia. }
  assert (Xt : rnd (w - IZR i) = w - IZR i).
  { apply (whole_exact (- b) 0); [exact Wt|change (bpow radix2 0) with 1; rewrite Rabs_pos_eq; lra|lia|lia]. }
  assert (O1 : 1 < bpow radix2 emax) by (change 1 with (bpow radix2 0); apply bpow_lt; lia).
  destruct (div_ok prec emax Hp He (fsub o x a) h Fd) as (Ft & Vt); [lra|rewrite Et, Xt, Rabs_pos_eq; lra|].
  rewrite Et, Xt in Vt. split; [exact Ft|]. rewrite Vt. split; [reflexivity|]. split; [lra|exact Wt].
Qed.

(** ** Regular grids *)
Section Reg.
Variables (c : cfg) (dims : list Z) (starts steps vals x : list fl) (eval : list fl -> outcome fl) (a b g : Z).
Notation axes := (reg_axes dims (map B2R starts) (map B2R steps)).
Hypothesis H : float_regular Hp He c dims starts steps vals eval.
Hypothesis Lx : length x = length dims.
Hypothesis P2 : (2 <= prec <= 62)%Z.
Hypothesis Hb : (0 <= b)%Z.
Hypothesis HA : forall k start h d xk, nth_error starts k = Some start -> nth_error steps k = Some h -> nth_error dims k = Some d ->
     nth_error x k = Some xk -> dyadic_axis prec emax b start h xk d.
Hypothesis HV : dyadic_values prec emax a g vals.
Hypothesis Hfit : (a + 1 + Z.of_nat (length dims) * b <= prec)%Z.
Hypothesis Hlow : (emin <= g - Z.of_nat (length dims) * b)%Z.
Hypothesis Hhigh : (g + a + 1 < emax)%Z.

Lemma exact_core : Forall (good_axis 2) axes /\ SpecReal.inside_grid axes (map B2R x) /\ exists y, eval x = Ok y /\ fin y /\
  B2R y = tenL (ops1 lin1 axes (map B2R x)) (entry 0 (map npts axes) (map B2R vals)).
Proof using All.
  destruct (float_regular_inv _ _ _ _ _ _ _ _ _ _ H) as (W & P & fma & E). rewrite E by auto.
  assert (W' := W). destruct W' as (W0 & W1 & W2 & W3 & W4). cbn [r_dims r_starts r_steps r_vals] in *.
  assert (L1 : length (map (@B2R prec emax) starts) = length dims) by (rewrite map_length; auto).
  assert (L2 : length (map (@B2R prec emax) steps) = length dims) by (rewrite map_length; auto).
  assert (La := reg_axes_length _ _ _ L1 L2). assert (Dm := reg_axes_npts _ _ _ L1 L2).
  set (st := fun k => nth k starts (fzero o)). set (sp := fun k => nth k steps (fzero o)).
  set (xx := fun k => nth k x (fzero o)). set (dd := fun k => nth k dims 0%Z).
  assert (AX : forall k, (k < length dims)%nat -> (2 <= dd k)%Z /\ dyadic_axis prec emax b (st k) (sp k) (xx k) (dd k)).
  { intros k Hk. split; [apply (Forall_nth_lt 0%Z W3 Hk)|]. apply (HA k); apply nth_error_nth_some; lia. }
  assert (SP : Forall (fun h => 0 < B2R h) steps).
  { apply Forall_forall. intros h Hh. apply (In_nth _ _ (fzero o)) in Hh as (k & Hk & <-). destruct (AX k ltac:(lia)) as (_ & _ & _ & _ & e & Ve & _).
    fold (sp k). rewrite Ve. apply bpow_gt_0. }
  assert (Good : Forall (good_axis 2) axes) by (apply reg_axes_good; auto; rewrite Forall_map; exact SP).
  split; [exact Good|].
  assert (NA : forall k, (k < length dims)%nat -> nth k axes ax0 = mkAxis (dd k) (fun i => B2R (st k) + B2R (sp k) * IZR i)).
  { intros k Hk. rewrite reg_axes_nth by auto. rewrite !(nth_B2R prec emax Hp He). reflexivity. }
  split.
  { split; [rewrite map_length; lia|]. intros k ak Ek. assert (Hk : (k < length dims)%nat) by (rewrite <- La; apply nth_error_Some; congruence).
    apply nth_error_nth with (d := ax0) in Ek. rewrite <- Ek, NA by auto. rewrite (nth_B2R prec emax Hp He). cbn [coord npts]. fold (xx k).
    destruct (AX k Hk) as (_ & _ & _ & _ & e & Q). cbv zeta in Q. destruct Q as (_ & _ & _ & _ & _ & Q & _). change (IZR 0) with 0. lra. }
  assert (CE : forall k, (k < length dims)%nat -> exists i, reg_cell o (st k) (sp k) (dd k) (xx k) = Ok i /\ (0 <= i <= dd k - 2)%Z /\
    let t := reg_dtp o fma (st k) (sp k) (xx k) i in
    fin t /\ B2R t = (B2R (xx k) - B2R (st k)) / B2R (sp k) - IZR i /\ 0 <= B2R t <= 1 /\ whole (bpow radix2 (- b)) (B2R t)).
  { intros k Hk. destruct (AX k Hk) as (D & A). apply exact_position; auto. }
  destruct (mapM_total _ _ (fun k => reg_cell o (st k) (sp k) (dd k) (xx k)) (seq 0 (length dims))) as (os & Eos).
  { intros k Hk. apply in_seq in Hk. destruct (CE k ltac:(lia)) as (i & -> & _). eauto. }
  assert (Eos' : reg_cells o (mkRegular dims starts steps vals) x = Ok os) by exact Eos.
  rewrite Eos'. cbn [bind]. eexists. split; [reflexivity|].
  assert (CO : forall k, (k < length dims)%nat -> (0 <= nth k os 0 <= dd k - 2)%Z /\
    let t := reg_dtp o fma (st k) (sp k) (xx k) (nth k os 0%Z) in
    fin t /\ B2R t = (B2R (xx k) - B2R (st k)) / B2R (sp k) - IZR (nth k os 0%Z) /\ 0 <= B2R t <= 1 /\ whole (bpow radix2 (- b)) (B2R t)).
  { intros k Hk. assert (Ek := @mapM_snoc_nth _ 0%Z _ _ _ Eos k Hk). cbv beta in Ek.
    destruct (CE k Hk) as (i & Ei & R). rewrite Ei in Ek. injection Ek as <-. exact R. }
  assert (Lm : length (map B2R x) = length axes) by (rewrite map_length; lia).
  assert (LF := good_lin _ Lm Good). rewrite Dm in *.
  destruct (tens_exact c dims os (entry (fzero o) dims vals) (ops1 lin1 axes (map B2R x))
     (fun k => reg_dtp o fma (st k) (sp k) (xx k) (nth k os 0%Z)) a b g) with (k := length dims) (suf := @nil Z) as (F & V & _); auto.
  - intros idx. unfold entry. destruct (nth_in_or_default (Z.to_nat (cindex dims idx)) vals (fzero o)) as [I|Q].
    + unfold dyadic_values in HV. rewrite Forall_forall in HV. apply HV; auto.
    + rewrite Q. split; [reflexivity|]. split; [apply whole_0|]. simpl. rewrite Rabs_R0. apply bpow_ge_0.
  - intros k Hk. destruct (CO k Hk) as (_ & F & _ & R). split; [exact F|exact R].
  - intros k f Hk. rewrite ops1_nth by (rewrite ?map_length; lia). rewrite NA by auto. rewrite (nth_B2R prec emax Hp He). fold (xx k).
    destruct (CO k Hk) as (C & _ & V & R & _). cbv zeta in V, R. destruct (AX k Hk) as (D & _).
    assert (S0 : 0 < B2R (sp k)) by (apply (Forall_nth_lt (fzero o) SP); lia).
    set (z := nth k os 0%Z) in *. set (T := B2R (reg_dtp o fma (st k) (sp k) (xx k) z)) in *.
    assert (Q : B2R (xx k) = B2R (st k) + B2R (sp k) * (IZR z + T)) by (rewrite V; field; lra).
    set (ak := mkAxis (dd k) (fun i => B2R (st k) + B2R (sp k) * IZR i)).
    assert (Ic : in_cell ak (B2R (xx k)) z).
    { split; [cbn [npts ak]; lia|]. unfold ak. cbn [coord]. rewrite plus_IZR, Q. split; right; apply Rplus_le_compat_l; apply Rmult_le_compat_l; lra. }
    assert (Ia : increasing_axis ak) by (apply reg_axis_inc; auto).
    rewrite (@lin1_weights ak Ia D _ f z Ic). unfold local_coord, ak. cbn [coord]. rewrite plus_IZR, Q.
    replace ((B2R (st k) + B2R (sp k) * (IZR z + T) - (B2R (st k) + B2R (sp k) * IZR z)) / (B2R (st k) + B2R (sp k) * (IZR z + 1) - (B2R (st k) + B2R (sp k) * IZR z))) with T by (field; lra).
    ring.
  - unfold mlr_value. cbn [r_dims r_starts r_steps r_vals]. split; [exact F|].
    assert (LO : length (ops1 lin1 axes (map B2R x)) = length dims) by (rewrite ops1_length by auto; lia).
    replace (firstn (length dims) (ops1 lin1 axes (map B2R x))) with (ops1 lin1 axes (map B2R x)) in V by (rewrite <- LO, firstn_all; reflexivity).
    eapply eq_trans; [exact V|]. apply (tenL_ext _ _ LF). intros idx _. rewrite app_nil_r. symmetry. apply entry_real.
Qed.
Theorem exact_regular c' dom eval' : multilinear c' (map B2R vals) axes dom eval' ->
  exists y, eval x = Ok y /\ fin y /\ eval' (map B2R x) = Ok (B2R y).
Proof using All.
  intros M. destruct exact_core as (G & I & y & E & F & R). destruct (multilinear_value M) as (_ & _ & E').
  exists y. split; [exact E|]. split; [exact F|]. rewrite R. apply E'; [apply I|eapply multilinear_inside; eauto].
Qed.
End Reg.

(** ** Rectilinear grids *)
Lemma exact_ratio bb (u v x : fl) q e : (2 <= prec)%Z -> (0 <= bb <= prec)%Z -> fin u -> fin v -> fin x -> (emin <= q)%Z -> (e <= q + bb)%Z ->
  whole (bpow radix2 q) (B2R u) -> whole (bpow radix2 q) (B2R v) -> whole (bpow radix2 q) (B2R x) ->
  B2R v - B2R u = bpow radix2 e -> (e < emax)%Z -> B2R u <= B2R x <= B2R v ->
  let t := fdiv o (fsub o x u) (fsub o v u) in
  fin t /\ B2R t = (B2R x - B2R u) / (B2R v - B2R u) /\ 0 <= B2R t <= 1 /\ whole (bpow radix2 (- bb)) (B2R t).
Proof using Hp He.
  intros P2 Hb Fu Fv Fx Lq Le Wu Wv Wx Ee Lm Hx t. assert (B0 := bpow_gt_0 radix2 e).
  assert (LT : bpow radix2 e < bpow radix2 emax) by (apply bpow_lt; exact Lm).
  assert (W1 := whole_sub _ _ _ Wx Wu). assert (W2 := whole_sub _ _ _ Wv Wu).
  assert (X1 : rnd (B2R x - B2R u) = B2R x - B2R u) by (apply (whole_exact q e); [exact W1|rewrite Rabs_pos_eq; lra|exact Lq|lia]).
  assert (X2 : rnd (B2R v - B2R u) = B2R v - B2R u) by (apply (whole_exact q e); [exact W2|rewrite Rabs_pos_eq; lra|exact Lq|lia]).
  destruct (sub_ok prec emax Hp He x u Fx Fu) as (F1 & V1); [rewrite X1, Rabs_pos_eq; lra|]. rewrite X1 in V1.
  destruct (sub_ok prec emax Hp He v u Fv Fu) as (F2 & V2); [rewrite X2, Rabs_pos_eq; lra|]. rewrite X2 in V2.
  assert (R : 0 <= (B2R x - B2R u) / (B2R v - B2R u) <= 1).
  { rewrite Ee. split; [apply Rmult_le_pos; [lra|left; apply Rinv_0_lt_compat; lra]|].
    apply Rmult_le_reg_r with (bpow radix2 e); [lra|]. unfold Rdiv. rewrite Rmult_assoc, Rinv_l by lra. lra. }
  assert (Wt : whole (bpow radix2 (- bb)) ((B2R x - B2R u) / (B2R v - B2R u))).
  { apply (whole_finer _ (q - e)); [lia|]. destruct W1 as (n & E). exists n. rewrite Ee, E.
    replace (q - e)%Z with (q + - e)%Z by lia. rewrite bpow_plus, bpow_opp. unfold Rdiv. ring. }
  assert (Em : (emin <= - bb)%Z) by (unfold Prec_lt_emax in He; lia).
  assert (X3 : rnd ((B2R x - B2R u) / (B2R v - B2R u)) = (B2R x - B2R u) / (B2R v - B2R u)).
  { apply (whole_exact (- bb) 0); [exact Wt|change (bpow radix2 0) with 1; rewrite Rabs_pos_eq; lra|exact Em|lia]. }
  assert (O1 : 1 < bpow radix2 emax) by (change 1 with (bpow radix2 0); apply bpow_lt; unfold Prec_lt_emax in He; lia).
  destruct (div_ok prec emax Hp He (fsub o x u) (fsub o v u) F1) as (Ft & Vt); [lra|rewrite V1, V2, X3, Rabs_pos_eq; lra|].
  rewrite V1, V2, X3 in Vt. fold t in Ft, Vt. rewrite Vt. auto.
Qed.

Section Rect.
Variables (c : cfg) (grids : list (list fl)) (vals x : list fl) (eval : list fl -> outcome fl) (a b g : Z).
Notation axes := (rect_axes (map (map (@B2R prec emax)) grids)).
Hypothesis H : float_rectilinear Hp He c grids vals eval.
Hypothesis I : Forall (increasing_grid o) grids.
Hypothesis S : Forall (Forall (@moderate prec emax)) grids.
Hypothesis In : Forall2 (SpecIEEE.inside_grid Hp He) grids x.
Hypothesis P2 : (2 <= prec)%Z.
Hypothesis Hb : (0 <= b)%Z.
Hypothesis HA : Forall2 (dyadic_grid prec emax b) grids x.
Hypothesis HV : dyadic_values prec emax a g vals.
Hypothesis Ha : (0 <= a)%Z.
Hypothesis Hfit : (a + 1 + Z.of_nat (length grids) * b <= prec)%Z.
Hypothesis Hlow : (emin <= g - Z.of_nat (length grids) * b)%Z.
Hypothesis Hhigh : (g + a + 1 < emax)%Z.

Lemma exact_core_rect : Forall (good_axis 2) axes /\ SpecReal.inside_grid axes (map B2R x) /\ exists y, eval x = Ok y /\ fin y /\
  B2R y = tenL (ops1 lin1 axes (map B2R x)) (entry 0 (map npts axes) (map B2R vals)).
Proof using All.
  destruct (float_rectilinear_inv _ _ _ _ _ _ _ _ H) as (W & E).
  assert (W' := W). destruct W' as (W0 & _ & W2 & W3). cbn [g_grids g_dims g_vals] in *.
  assert (La : length axes = length grids) by (unfold rect_axes; rewrite !map_length; auto).
  assert (Lx : length x = length grids) by (symmetry; eapply Forall2_len; exact In). rewrite E by auto.
  assert (Good : Forall (good_axis 2) axes).
  { apply rect_axes_good; unfold grids_ok; rewrite Forall_map.
    - rewrite Forall_forall in *. intros gr Hg. apply (increasing_B2R prec emax Hp He); auto.
      eapply Forall_impl; [|exact (S gr Hg)]. intros v (Fv & _). exact Fv.
    - eapply Forall_impl; [|exact W2]. intros gr Hg. rewrite zlen_map. exact Hg. }
  split; [exact Good|].
  assert (Dm : map npts axes = map zlen grids).
  { rewrite rect_axes_npts, map_map. apply map_ext. intros gr. apply zlen_map. }
  assert (NA : forall k, (k < length grids)%nat -> nth k axes ax0 = list_axis (map B2R (nth k grids []))).
  { intros k Hk. rewrite rect_axes_nth by (rewrite map_length; auto).
    rewrite (nth_indep (map (map (@B2R prec emax)) grids) [] (map (@B2R prec emax) [])) by (rewrite map_length; auto). rewrite (map_nth (map (@B2R prec emax))). reflexivity. }
  assert (D2 : forall k, (k < length grids)%nat -> (2 <= zlen (nth k grids []))%Z) by (intros; apply (Forall_nth_lt [] W2); auto).
  assert (Bb : (b <= prec)%Z).
  { assert (1 * b <= Z.of_nat (length grids) * b)%Z by (apply Z.mul_le_mono_nonneg_r; lia). lia. }
  assert (Cell : forall k, (k < length grids)%nat ->
    let gr := nth k grids [] in let xk := nth k x (fzero o) in let z := rect_cell o gr xk in let t := rect_dtp o gr xk z in
    (0 <= z <= zlen gr - 2)%Z /\ B2R (gz o gr z) <= B2R xk <= B2R (gz o gr (z + 1)) /\
    fin t /\ B2R t = (B2R xk - B2R (gz o gr z)) / (B2R (gz o gr (z + 1)) - B2R (gz o gr z)) /\ 0 <= B2R t <= 1 /\ whole (bpow radix2 (- b)) (B2R t)).
  { intros k Hk. assert (D := D2 k Hk). cbv zeta.
    destruct (inside_ends prec emax Hp He (nth k grids []) (nth k x (fzero o)) (fzero o)) as (Fx & X0 & X1);
      [lia|eapply Forall2_nth_lt; eauto|].
    destruct (inside_cell prec emax Hp He (nth k grids []) (nth k x (fzero o)) (fzero o)) as (u & v & Eu & Ev & Su & Sv & Sx & B & B'); auto.
    { apply (Forall_nth_lt [] I Hk). } { apply (Forall_nth_lt [] S Hk). }
    assert (Rz := @rect_cell_range fl o (nth k grids []) (nth k x (fzero o)) D). split; [exact Rz|].
    assert (Q : dyadic_grid prec emax b (nth k grids []) (nth k x (fzero o))) by (eapply Forall2_nth_lt; eauto).
    destruct Q as (q & Lq & Wx & Wg & Q).
    destruct (Q (Z.to_nat (rect_cell o (nth k grids []) (nth k x (fzero o)))) u v Eu) as (e & Le & Ee).
    { rewrite <- Ev. f_equal. lia. }
    rewrite Forall_forall in Wg. assert (Wu := Wg u (nth_error_In _ _ Eu)). assert (Wv := Wg v (nth_error_In _ _ Ev)).
    assert (Lm : (e < emax)%Z).
    { apply (lt_bpow radix2). rewrite <- Ee. destruct Su as (_ & Su). destruct Sv as (_ & Sv). apply Rabs_le_inv in Su. apply Rabs_le_inv in Sv.
      assert (bpow radix2 (emax - 2) + bpow radix2 (emax - 2) = bpow radix2 (emax - 1)).
      { replace (emax - 1)%Z with (1 + (emax - 2))%Z by lia. rewrite bpow_plus. change (bpow radix2 1) with 2. ring. }
      assert (bpow radix2 (emax - 1) < bpow radix2 emax) by (apply bpow_lt; lia). lra. }
    destruct (exact_ratio b u v _ q e P2 ltac:(lia) (proj1 Su) (proj1 Sv) Fx Lq Le Wu Wv Wx Ee Lm B) as (G1 & G2 & G3 & G4).
    apply (nth_error_nth _ _ (fzero o)) in Eu. apply (nth_error_nth _ _ (fzero o)) in Ev.
    unfold rect_dtp, gz. rewrite Eu, Ev. split; [exact B|]. split; [exact G1|]. split; [exact G2|]. split; [exact G3|exact G4]. }
  assert (CR : forall k i, coord (list_axis (map B2R (nth k grids []))) i = B2R (gz o (nth k grids []) i)).
  { intros k i. unfold list_axis. cbn [coord]. rewrite (nth_B2R prec emax Hp He). reflexivity. }
  assert (Good' : forall k, (k < length grids)%nat -> good_axis 2 (list_axis (map B2R (nth k grids [])))).
  { intros k Hk. rewrite <- NA by auto. apply (Forall_nth_lt ax0 Good). lia. }
  assert (Np : forall k, npts (list_axis (map (@B2R prec emax) (nth k grids []))) = zlen (nth k grids [])) by (intros; apply zlen_map).
  split.
  { split; [rewrite map_length; lia|]. intros k ak Ek. assert (Hk : (k < length grids)%nat) by (rewrite <- La; apply nth_error_Some; congruence).
    apply nth_error_nth with (d := ax0) in Ek. rewrite <- Ek, NA by auto. rewrite (nth_B2R prec emax Hp He).
    destruct (Cell k Hk) as (Rz & R & _). destruct (Good' k Hk) as (Ia & Na). rewrite <- !CR in R. split.
    - eapply Rle_trans; [|exact (proj1 R)]. apply (axis_le Ia); rewrite ?Np; lia.
    - eapply Rle_trans; [exact (proj2 R)|]. apply (axis_le Ia); rewrite ?Np; lia. }
  eexists. split; [reflexivity|].
  assert (Lm : length (map B2R x) = length axes) by (rewrite map_length; lia).
  assert (LF := good_lin _ Lm Good). rewrite Dm in *.
  assert (LD : length (map zlen grids) = length grids) by apply map_length.
  set (os := rect_cells o (mkRect grids (map zlen grids) vals) x).
  set (th := fun k => rect_dtp o (nth k grids []) (nth k x (fzero o)) (rect_cell o (nth k grids []) (nth k x (fzero o)))).
  destruct (tens_exact c (map zlen grids) os (entry (fzero o) (map zlen grids) vals) (ops1 lin1 axes (map B2R x)) th a b g)
    with (k := length (map (@zlen fl) grids)) (suf := @nil Z) as (F & V & _); rewrite ?LD; auto.
  - intros idx. unfold entry. destruct (nth_in_or_default (Z.to_nat (cindex (map zlen grids) idx)) vals (fzero o)) as [I'|Q].
    + unfold dyadic_values in HV. rewrite Forall_forall in HV. apply HV; auto.
    + rewrite Q. split; [reflexivity|]. split; [apply whole_0|]. simpl. rewrite Rabs_R0. apply bpow_ge_0.
  - intros k Hk. destruct (Cell k Hk) as (_ & _ & G1 & _ & G3). split; [exact G1|exact G3].
  - intros k f Hk. rewrite ops1_nth by (rewrite ?map_length; lia). rewrite NA by auto. rewrite (nth_B2R prec emax Hp He).
    unfold os. rewrite rect_cells_nth by auto. cbn [g_grids]. destruct (Good' k Hk) as (Ia & Na).
    destruct (Cell k Hk) as (Rz & R & _ & G2 & _). fold (th k) in G2.
    rewrite (@lin1_weights _ Ia Na _ f (rect_cell o (nth k grids []) (nth k x (fzero o)))).
    2:{ split; [cbn [list_axis npts]; rewrite zlen_map; lia|]. rewrite !CR. split; right; apply R. }
    unfold local_coord. rewrite !CR, <- G2. ring.
  - unfold mlc_value. cbn [g_grids g_dims g_vals]. fold os. rewrite LD in F, V. split; [exact F|].
    assert (LO : length (ops1 lin1 axes (map B2R x)) = length grids) by (rewrite ops1_length by auto; lia).
    replace (firstn (length grids) (ops1 lin1 axes (map B2R x))) with (ops1 lin1 axes (map B2R x)) in V by (rewrite <- LO, firstn_all; reflexivity).
    eapply eq_trans; [exact V|]. apply (tenL_ext _ _ LF). intros idx _. rewrite app_nil_r. symmetry. apply entry_real.
Qed.
Theorem exact_rectilinear c' dom eval' : multilinear c' (map B2R vals) axes dom eval' ->
  exists y, eval x = Ok y /\ fin y /\ eval' (map B2R x) = Ok (B2R y).
Proof using All.
  intros M. destruct exact_core_rect as (G & I' & y & E & F & R). destruct (multilinear_value M) as (_ & _ & E').
  exists y. split; [exact E|]. split; [exact F|]. rewrite R. apply E'; [apply I'|eapply multilinear_inside; eauto].
Qed.
End Rect.

(** ** The Python function *)
Section Python.
Variables (c : cfg) (obs grids : list (ndarray fl)) (vals o0 : ndarray fl) (lin assume : bool) (atol : fl) (a b g : Z).
Notation gs := (map nd_data grids).
Notation pt j := (point_of (fzero o) (map nd_data obs) j).
Notation n := (length (nd_data o0)).
Hypothesis Hc : good_call 2 o0 obs grids vals.
Hypothesis Hn : (1 <= length grids <= 8)%nat.
Hypothesis Hb : (0 <= b)%Z.
Hypothesis HV : dyadic_values prec emax a g (nd_data vals).
Hypothesis Hfit : (a + 1 + Z.of_nat (length grids) * b <= prec)%Z.
Hypothesis Hlow : (emin <= g - Z.of_nat (length grids) * b)%Z.
Hypothesis Hhigh : (g + a + 1 < emax)%Z.

Theorem exact_python_even c' dom eval' : (2 <= prec <= 62)%Z -> assume = true \/ Forall (evenly_spaced o) gs ->
  (forall j, (j < n)%nat -> Forall2 (fun gr xk => dyadic_axis prec emax b (nth 0 gr (fzero o)) (first_step prec emax Hp He gr) xk (zlen gr)) gs (pt j)) ->
  (0 < n)%nat ->
  multilinear c' (map B2R (nd_data vals)) (reg_axes (map zlen gs) (map B2R (firsts (fzero o) gs)) (map B2R (spacings o (fzero o) gs))) dom eval' ->
  exists r, fst (py_interpn o c obs grids vals "linear" None lin assume false atol) = Ret r /\
  nd_shape r = nd_shape o0 /\ length (nd_data r) = n /\
  forall j, (j < n)%nat -> is_finite (nth j (nd_data r) (fzero o)) = true /\
    eval' (map B2R (pt j)) = Ok (B2R (nth j (nd_data r) (fzero o))).
Proof using All.
  intros P2 Hev HA N0 HM.
  assert (SP : Forall (fun h => flt o (fzero o) h = true) (spacings o (fzero o) gs)).
  { unfold spacings. rewrite Forall_map. specialize (HA 0%nat N0). apply Forall_forall. intros gr Hg.
    apply (In_nth _ _ []) in Hg as (k & Hk & <-).
    assert (L : (k < length (pt 0))%nat) by (rewrite <- (Forall2_len _ _ _ _ _ HA); exact Hk).
    assert (Q := Forall2_nth_lt _ _ _ _ _ k [] (fzero o) HA Hk). destruct Q as (_ & Fh & _ & e & Ve & _).
    apply ltb_fin; auto. unfold first_step in Ve. rewrite Ve. apply bpow_gt_0. }
  assert (RI := call_reg o c obs grids vals o0 Hc Hn).
  destruct (call_even o c obs grids vals o0 lin assume atol Hc Hn SP Hev) as (eval & Hs & Hr).
  assert (Hfl : float_regular Hp He c (map zlen gs) (firsts (fzero o) gs) (spacings o (fzero o) gs) (nd_data vals) eval).
  { destruct Hs as [(s & Es & ->)|(k & s & Es & ->)]; [apply float_regular_flat|apply float_regular_recursive]; auto. }
  assert (HT : forall j, (j < n)%nat -> exists y, eval (pt j) = Ok y /\ fin y /\ eval' (map B2R (pt j)) = Ok (B2R y)).
  { intros j Hj. specialize (HA j Hj). eapply (exact_regular c _ _ _ (nd_data vals) (pt j) eval a b g Hfl); eauto; rewrite ?map_length; auto.
    - rewrite <- (Forall2_len _ _ _ _ _ HA). rewrite map_length. reflexivity.
    - intros k start h d xk E1 E2 E3 E4. unfold firsts, spacings in E1, E2. rewrite nth_error_map in E1, E2, E3.
      destruct (nth_error gs k) as [gr|] eqn:Eg; cbn [option_map] in *; [|discriminate E1].
      injection E1 as <-. injection E2 as <-. injection E3 as <-.
      clear - HA Eg E4. revert k Eg E4. induction HA as [|g' x' l l' Q' R' IH]; intros [|k] Eg E4; cbn [nth_error] in *; try discriminate Eg.
      + injection Eg as <-. injection E4 as <-. exact Q'.
      + eapply IH; eauto. }
  destruct Hr as (r & R1 & R2 & R3 & R4).
  - intros j Hj. destruct (HT j Hj) as (y & Ey & _). eauto.
  - exists r. split; [exact R1|]. split; [exact R2|]. split; [exact R3|]. intros j Hj. destruct (HT j Hj) as (y & Ey & Fy).
    rewrite (R4 j Hj) in Ey. rewrite (ok_same _ _ Ey). exact Fy.
Qed.
Theorem exact_python_uneven c' dom eval' : (2 <= prec)%Z -> (0 <= a)%Z -> assume = false -> ~ Forall (evenly_spaced o) gs ->
  Forall (increasing_grid o) gs -> Forall (Forall (@moderate prec emax)) gs ->
  (forall j, (j < n)%nat -> Forall2 (SpecIEEE.inside_grid Hp He) gs (pt j) /\ Forall2 (dyadic_grid prec emax b) gs (pt j)) ->
  multilinear c' (map B2R (nd_data vals)) (rect_axes (map (map B2R) gs)) dom eval' ->
  exists r, fst (py_interpn o c obs grids vals "linear" None lin assume false atol) = Ret r /\
  nd_shape r = nd_shape o0 /\ length (nd_data r) = n /\
  forall j, (j < n)%nat -> is_finite (nth j (nd_data r) (fzero o)) = true /\
    eval' (map B2R (pt j)) = Ok (B2R (nth j (nd_data r) (fzero o))).
Proof using All.
  intros P2 A0 Ha Hne Hi Hm HA HM.
  assert (FT : Forall (first_two_increase o) gs).
  { assert (G2 := proj1 (call_lens o obs grids vals o0 Hc Hn)). rewrite Forall_forall in *. intros gr Hg. specialize (G2 gr Hg). specialize (Hi gr Hg).
    destruct gr as [|u [|v gr]]; simpl in G2; try lia. apply (Hi 0%nat 1%nat); auto. }
  assert (RI := call_rect o c obs grids vals o0 Hc Hn).
  destruct (call_uneven o c obs grids vals o0 lin assume atol Hc Hn FT Ha Hne) as (eval & Hs & Hr).
  assert (Hfl : float_rectilinear Hp He c gs (nd_data vals) eval).
  { destruct Hs as [(s & Es & ->)|(k & s & Es & ->)]; [apply float_rectilinear_flat|apply float_rectilinear_recursive]; auto. }
  assert (HT : forall j, (j < n)%nat -> exists y, eval (pt j) = Ok y /\ fin y /\ eval' (map B2R (pt j)) = Ok (B2R y)).
  { intros j Hj. destruct (HA j Hj) as (H1 & H2). eapply (exact_rectilinear c gs (nd_data vals) (pt j) eval a b g Hfl); eauto; rewrite ?map_length; auto. }
  destruct Hr as (r & R1 & R2 & R3 & R4).
  - intros j Hj. destruct (HT j Hj) as (y & Ey & _). eauto.
  - exists r. split; [exact R1|]. split; [exact R2|]. split; [exact R3|]. intros j Hj. destruct (HT j Hj) as (y & Ey & Fy).
    rewrite (R4 j Hj) in Ey. rewrite (ok_same _ _ Ey). exact Fy.
Qed.
End Python.
End B.
