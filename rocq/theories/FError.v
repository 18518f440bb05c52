(** Rounding errors of multilinear interpolation over the IEEE instances. *)
From Coq Require Import Reals Lra Lia List Bool ZifyBool ZifyNat PeanoNat.
From Flocq Require Import Core.Core Relative Plus_error IEEE754.BinarySingleNaN.
From Verif Require Import Base Ops FInst ModelCore ModelLinear Spec SpecOrder SpecIEEE.
From Verif Require Import CoreLemmas TensorLemmas MethodLemmas SearchLemmas MethodChar GenLemmas GenProofs OrderLemmas OrderProofs FLemmas UtilProofs FProofs FProofs2.
From Verif Require Import RInst SpecReal RTensor R1D RChar Interpolators REval.
Import ListNotations.
Unset Implicit Arguments.
Open Scope list_scope.
Open Scope R_scope.

Lemma abs_mul x y X Y : Rabs x <= X -> Rabs y <= Y -> Rabs (x * y) <= X * Y.
Proof. intros. rewrite Rabs_mult. apply Rmult_le_compat; auto; apply Rabs_pos. Qed.
Lemma abs_add x y X Y : Rabs x <= X -> Rabs y <= Y -> Rabs (x + y) <= X + Y.
Proof. intros. eapply Rle_trans; [apply Rabs_triang|]. lra. Qed.

Lemma Forall2_len A B (P : A -> B -> Prop) la lb : Forall2 P la lb -> length la = length lb.
Proof. induction 1; simpl; congruence. Qed.
Lemma Forall2_firstn A B (P : A -> B -> Prop) k la lb : Forall2 P la lb -> Forall2 P (firstn k la) (firstn k lb).
Proof. intros H. revert k. induction H; destruct k; simpl; constructor; auto. Qed.

Lemma mapM_total A B (f : A -> outcome B) l : (forall a, In a l -> exists b, f a = Ok b) -> exists bs, mapM f l = Ok bs.
Proof.
  induction l as [|a l IH]; intros H; [eexists; reflexivity|].
  destruct (H a (or_introl eq_refl)) as (b & Eb). destruct IH as (bs & Ebs); [intros; apply H; right; auto|].
  exists (b :: bs). cbn [mapM]. rewrite Eb. cbn [bind]. rewrite Ebs. reflexivity.
Qed.

Section B.
Variables prec emax : Z.
Context (Hp : Prec_gt_0 prec) (He : Prec_lt_emax prec emax).
Notation fl := (binary_float prec emax).
Notation o := (BOps Hp He).
Notation emin := (3 - emax - prec)%Z.
Notation fin x := (is_finite x = true).
Notation rnd := (rnd prec emax).
Notation fexp := (FLT_exp emin prec).
Notation small v := (@moderate prec emax v).
Notation u := (bpow radix2 (- prec)).
Notation eta := (/ 2 * bpow radix2 emin).

Lemma u_pos : 0 < u.
Proof. apply bpow_gt_0. Qed.
Lemma eta_pos : 0 < eta.
Proof. assert (A := bpow_gt_0 radix2 emin). lra. Qed.

(** One rounding. *)
Lemma rnd_abs x : Rabs (rnd x - x) <= u * Rabs x + eta.
Proof.
  destruct (@rnd_error prec emax Hp x) as (e & h & He' & Hh & _ & E). rewrite E.
  replace (x * (1 + e) + h - x) with (e * x + h) by ring.
  apply abs_add; auto. apply abs_mul; [|lra].
  rewrite bpow_plus_1 in He'. simpl (IZR radix2) in He'. lra.
Qed.

(** Multiples of the smallest subnormal are rounded with a relative error only. *)
Definition on_grid (x : R) : Prop := exists m, x = IZR m * bpow radix2 emin.
Lemma on_grid_fl (x : fl) : on_grid (B2R x).
Proof.
  assert (G := generic_format_B2R prec emax x). unfold generic_format in G. rewrite G. unfold F2R. simpl Fnum. simpl Fexp.
  set (m := Ztrunc _). set (e := cexp _ _ _).
  assert (L : (emin <= e)%Z). { unfold e, cexp, SpecFloat.fexp, SpecFloat.emin. lia. }
  exists (m * 2 ^ (e - emin))%Z. rewrite mult_IZR, (IZR_Zpower radix2) by lia. rewrite Rmult_assoc, <- bpow_plus.
  do 2 f_equal. lia.
Qed.
Lemma on_grid_add x y : on_grid x -> on_grid y -> on_grid (x + y).
Proof. intros (m & ->) (n & ->). exists (m + n)%Z. rewrite plus_IZR. ring. Qed.
Lemma on_grid_sub x y : on_grid x -> on_grid y -> on_grid (x - y).
Proof. intros (m & ->) (n & ->). exists (m - n)%Z. rewrite minus_IZR. ring. Qed.
Lemma on_grid_mulz x n : on_grid x -> on_grid (x * IZR n).
Proof. intros (m & ->). exists (m * n)%Z. rewrite mult_IZR. ring. Qed.
Lemma rnd_rel x : on_grid x -> Rabs (rnd x - x) <= u * Rabs x.
Proof.
  intros (m & ->). destruct (Z_lt_le_dec (Z.abs m) (2 ^ prec)) as [L|L].
  - assert (E : rnd (IZR m * bpow radix2 emin) = IZR m * bpow radix2 emin).
    { apply round_generic; [typeclasses eauto|].
      apply generic_format_FLT. exists (Float radix2 m emin); simpl; auto. lia. }
    rewrite E. replace (_ - _) with 0 by ring. rewrite Rabs_R0. apply Rmult_le_pos; [apply bpow_ge_0|apply Rabs_pos].
  - destruct (relative_error_N_FLT_ex radix2 emin prec Hp (fun x => negb (Z.even x)) (IZR m * bpow radix2 emin)) as (e & E1 & E2).
    + rewrite Rabs_mult, (Rabs_pos_eq (bpow _ _)) by apply bpow_ge_0.
      replace (emin + prec - 1)%Z with ((prec - 1) + emin)%Z by lia. rewrite bpow_plus.
      apply Rmult_le_compat_r; [apply bpow_ge_0|]. rewrite <- abs_IZR. unfold Prec_gt_0 in Hp.
      rewrite <- (IZR_Zpower radix2) by lia. apply IZR_le.
      apply Z.le_trans with (2 ^ prec)%Z; auto. apply Z.pow_le_mono_r; lia.
    + change (round radix2 fexp (Znearest (fun x => negb (Z.even x))) (IZR m * bpow radix2 emin)) with (rnd (IZR m * bpow radix2 emin)) in E2.
      rewrite E2. replace (_ * (1 + e) - _) with (e * (IZR m * bpow radix2 emin)) by ring.
      apply abs_mul; [|lra]. rewrite bpow_plus_1 in E1. simpl (IZR radix2) in E1. lra.
Qed.

Lemma under_emax e : (e < emax)%Z -> bpow radix2 e < bpow radix2 emax.
Proof. apply bpow_lt. Qed.

(** Largest exact value that cannot overflow when rounded. *)
Lemma rnd_lt x : Rabs x <= bpow radix2 (emax - 1) -> Rabs (rnd x) < bpow radix2 emax.
Proof.
  intros H. apply Rle_lt_trans with (bpow radix2 (emax - 1)).
  - apply abs_round_le_generic; try typeclasses eauto; auto.
    apply generic_format_bpow. unfold FLT_exp. unfold Prec_lt_emax, Prec_gt_0 in *. lia.
  - apply bpow_lt. lia.
Qed.

Section Node.
Hypothesis Hu : u <= / 64.

Lemma prec_6 : (6 <= prec)%Z.
Proof using All.
  destruct (Z_le_gt_dec 6 prec); auto. exfalso.
  assert (A : bpow radix2 (- 5) <= u) by (apply bpow_le; lia). simpl in A. lra.
Qed.
Lemma eta_small : eta <= u * / 32 /\ eta <= bpow radix2 (emax - 4).
Proof using All.
  assert (P := prec_6). unfold Prec_lt_emax in He.
  assert (A : bpow radix2 emin <= bpow radix2 (- prec + - 4)) by (apply bpow_le; lia). rewrite bpow_plus in A.
  assert (B : bpow radix2 emin <= bpow radix2 (emax - 4)) by (apply bpow_le; lia).
  assert (C := bpow_gt_0 radix2 emin).
  assert (D : bpow radix2 (- 4) = / 16) by reflexivity. rewrite D in A. split; lra.
Qed.

(** One interpolation step between two floats. *)
Lemma lin_nd_error c (th a b : fl) t tau delta B : fin th -> fin a -> fin b ->
  0 <= tau -> 0 <= delta -> tau + delta <= / 4 -> Rabs (B2R th - t) <= tau -> - delta <= t <= 1 + delta ->
  Rabs (B2R a) <= B -> Rabs (B2R b) <= B -> B <= bpow radix2 (emax - 3) ->
  fin (lin_nd o c th [a; b]) /\
  Rabs (B2R (lin_nd o c th [a; b]) - (B2R a + t * (B2R b - B2R a))) <= (8 * u + 2 * tau) * B + 2 * eta.
Proof using All.
  intros Ft Fa Fb Ht Hd Htd Et Rt Ba Bb HB.
  assert (U := u_pos). assert (N := eta_pos). destruct eta_small as (N1 & N2).
  set (U1 := u) in *. set (N0 := eta) in *.
  assert (B0 : 0 <= B) by (eapply Rle_trans; [apply Rabs_pos|exact Ba]).
  assert (X1 : bpow radix2 (emax - 1) = 8 * bpow radix2 (emax - 4)).
  { replace (emax - 1)%Z with (3 + (emax - 4))%Z by lia. rewrite bpow_plus. reflexivity. }
  assert (X3 : bpow radix2 (emax - 3) = 2 * bpow radix2 (emax - 4)).
  { replace (emax - 3)%Z with (1 + (emax - 4))%Z by lia. rewrite bpow_plus. reflexivity. }
  assert (X0 := bpow_gt_0 radix2 (emax - 4)). 
  set (X := bpow radix2 (emax - 4)) in *.
  assert (Dab : Rabs (B2R b - B2R a) <= 2 * B).
  { apply Rabs_le_inv in Ba. apply Rabs_le_inv in Bb. apply Rabs_le. lra. }
  assert (Th : Rabs (B2R th) <= 5 / 4).
  { apply Rabs_le_inv in Et. apply Rabs_le. lra. }
  destruct (sub_ok _ _ Hp He b a Fb Fa) as (Fd & Vd); [apply rnd_lt; lra|].
  assert (Ed := rnd_rel (B2R b - B2R a) ltac:(apply on_grid_sub; apply on_grid_fl)). rewrite <- Vd in Ed. fold U1 in Ed.
  set (d := fsub o b a) in *.
  assert (Ed' : Rabs (B2R d - (B2R b - B2R a)) <= U1 * (2 * B)).
  { eapply Rle_trans; [exact Ed|]. apply Rmult_le_compat_l; lra. }
  assert (UB : 0 <= U1 * B) by nra. assert (UB' : U1 * B <= B / 64) by nra. assert (TB : tau * B <= B / 4) by nra.
  assert (TB0 : 0 <= tau * B) by nra.
  assert (Bd : Rabs (B2R d) <= 2 * B + 2 * (U1 * B)).
  { apply Rabs_le_inv in Ed'. apply Rabs_le_inv in Dab. apply Rabs_le. lra. }
  assert (Q : Rabs (B2R th * B2R d - t * (B2R b - B2R a)) <= 5 / 2 * (U1 * B) + 2 * (tau * B)).
  { replace (B2R th * B2R d - t * (B2R b - B2R a)) with
      (B2R th * (B2R d - (B2R b - B2R a)) + (B2R th - t) * (B2R b - B2R a)) by ring.
    eapply Rle_trans; [apply abs_add; [apply abs_mul; [exact Th|exact Ed']|apply abs_mul; [exact Et|exact Dab]]|]. lra. }
  assert (Bp : Rabs (B2R th * B2R d) <= 5 / 2 * B + 5 / 2 * (U1 * B)).
  { eapply Rle_trans; [apply abs_mul; [exact Th|exact Bd]|]. lra. }
  assert (L : Rabs (B2R a + t * (B2R b - B2R a)) <= 3 / 2 * B).
  { replace (B2R a + t * (B2R b - B2R a)) with ((1 - t) * B2R a + t * B2R b) by ring.
    apply Rabs_le_inv in Ba. apply Rabs_le_inv in Bb. apply Rabs_le.
    assert (Hd4 : delta <= / 4) by lra.
    destruct (Rle_lt_dec t 0); [|destruct (Rle_lt_dec t 1)]; split; nra. }
  assert (UUB : U1 * (U1 * B) <= U1 * B / 64) by nra.
  unfold lin_nd. fold d. destruct (use_fma c).
  - assert (BS : Rabs (B2R th * B2R d + B2R a) <= 21 / 10 * B).
    { replace (B2R th * B2R d + B2R a) with ((B2R th * B2R d - t * (B2R b - B2R a)) + (B2R a + t * (B2R b - B2R a))) by ring.
      eapply Rle_trans; [apply abs_add; [exact Q|exact L]|]. lra. }
    destruct (fma_ok _ _ Hp He th d a Ft Fd Fa) as (F & V); [apply rnd_lt; lra|].
    split; [exact F|]. rewrite V.
    assert (E := rnd_abs (B2R th * B2R d + B2R a)). fold U1 N0 in E.
    set (s := B2R th * B2R d + B2R a) in *.
    replace (rnd s - (B2R a + t * (B2R b - B2R a))) with ((rnd s - s) + (B2R th * B2R d - t * (B2R b - B2R a))) by (unfold s; ring).
    eapply Rle_trans; [apply abs_add; [exact E|exact Q]|].
    assert (U1 * Rabs s <= U1 * (21 / 10 * B)) by (apply Rmult_le_compat_l; lra). lra.
  - destruct (mul_ok _ _ Hp He th d Ft Fd) as (Fm & Vm); [apply rnd_lt; lra|].
    assert (Em := rnd_abs (B2R th * B2R d)). fold U1 N0 in Em. rewrite <- Vm in Em.
    set (p := fmul o th d) in *.
    assert (Em' : Rabs (B2R p - B2R th * B2R d) <= 26 / 10 * (U1 * B) + N0).
    { eapply Rle_trans; [exact Em|]. assert (U1 * Rabs (B2R th * B2R d) <= U1 * (5 / 2 * B + 5 / 2 * (U1 * B))) by (apply Rmult_le_compat_l; lra). lra. }
    assert (Q' : Rabs (B2R a + B2R p - (B2R a + t * (B2R b - B2R a))) <= (51 / 10 * (U1 * B) + 2 * (tau * B)) + N0).
    { replace (B2R a + B2R p - (B2R a + t * (B2R b - B2R a))) with ((B2R p - B2R th * B2R d) + (B2R th * B2R d - t * (B2R b - B2R a))) by ring.
      eapply Rle_trans; [apply abs_add; [exact Em'|exact Q]|]. lra. }
    assert (BS : Rabs (B2R a + B2R p) <= 21 / 10 * B + N0).
    { replace (B2R a + B2R p) with ((B2R a + B2R p - (B2R a + t * (B2R b - B2R a))) + (B2R a + t * (B2R b - B2R a))) by ring.
      eapply Rle_trans; [apply abs_add; [exact Q'|exact L]|]. lra. }
    destruct (add_ok _ _ Hp He a p Fa Fm) as (F & V); [apply rnd_lt; lra|].
    split; [exact F|]. rewrite V.
    assert (E := rnd_rel (B2R a + B2R p) ltac:(apply on_grid_add; apply on_grid_fl)). fold U1 in E.
    set (s := B2R a + B2R p) in *.
    replace (rnd s - (B2R a + t * (B2R b - B2R a))) with ((rnd s - s) + (s - (B2R a + t * (B2R b - B2R a)))) by ring.
    eapply Rle_trans; [apply abs_add; [exact E|exact Q']|].
    assert (U1 * Rabs s <= U1 * (21 / 10 * B + N0)) by (apply Rmult_le_compat_l; lra).
    assert (U1 * N0 <= N0 * / 64) by nra. lra.
Qed.

(** Rounding on the unit interval. *)
Lemma rnd_unit q : 0 <= q <= 1 -> Rabs (rnd q - q) <= u / 2.
Proof using All.
  intros Hq. assert (U := u_pos). destruct (Req_dec q 0) as [-> |N0].
  { rewrite rnd_0 by auto. replace (0 - 0) with 0 by ring. rewrite Rabs_R0. lra. }
  destruct (Req_dec q 1) as [-> |N1].
  { rewrite one_val by auto. replace (1 - 1) with 0 by ring. rewrite Rabs_R0. lra. }
  eapply Rle_trans; [apply error_le_half_ulp; typeclasses eauto|].
  rewrite ulp_neq_0 by auto. unfold cexp, FLT_exp.
  assert (M : (mag radix2 q <= 0)%Z) by (apply mag_le_bpow; auto; simpl; rewrite Rabs_pos_eq; lra).
  assert (L : bpow radix2 (Z.max (mag radix2 q - prec) emin) <= u).
  { apply bpow_le. assert (P := prec_6). unfold Prec_lt_emax in He. lia. }
  lra.
Qed.

(** Position of a point of the cell [a, b]. *)
Lemma position_error (a b x : fl) : small a -> small b -> small x -> B2R a <= B2R x <= B2R b -> B2R a < B2R b ->
  let th := fdiv o (fsub o x a) (fsub o b a) in
  fin th /\ Rabs (B2R th - (B2R x - B2R a) / (B2R b - B2R a)) <= 3 * u /\ 0 <= (B2R x - B2R a) / (B2R b - B2R a) <= 1.
Proof using All.
  intros Sa Sb Sx Hx Hab th. assert (U := u_pos).
  destruct (position_range _ _ Hp He a b x Sa Sb Sx Hx Hab) as (F & V & _ & R1 & R2). fold th in F, V.
  split; [exact F|]. rewrite V.
  assert (E1 := rnd_rel (B2R x - B2R a) ltac:(apply on_grid_sub; apply on_grid_fl)).
  assert (E2 := rnd_rel (B2R b - B2R a) ltac:(apply on_grid_sub; apply on_grid_fl)).
  set (p1 := rnd (B2R x - B2R a)) in *. set (p2 := rnd (B2R b - B2R a)) in *.
  set (w := B2R b - B2R a) in *. set (v := B2R x - B2R a) in *.
  assert (Pw : 0 < w) by (unfold w; lra). assert (Pv : 0 <= v <= w) by (unfold v, w; lra).
  rewrite (Rabs_pos_eq v) in E1 by lra. rewrite (Rabs_pos_eq w) in E2 by lra.
  assert (T : 0 <= v / w <= 1).
  { split; [apply Rmult_le_pos; [lra|left; apply Rinv_0_lt_compat; auto]|].
    apply Rmult_le_reg_r with w; auto. unfold Rdiv. rewrite Rmult_assoc, Rinv_l by lra. lra. }
  split; [|exact T].
  assert (Q : 0 <= p1 / p2 <= 1).
  { split; [apply Rmult_le_pos; [lra|left; apply Rinv_0_lt_compat; auto]|].
    apply Rmult_le_reg_r with p2; auto. unfold Rdiv. rewrite Rmult_assoc, Rinv_l by lra. lra. }
  assert (E3 := rnd_unit _ Q).
  assert (E4 : Rabs (p1 / p2 - v / w) <= 5 / 2 * u).
  { replace (p1 / p2 - v / w) with (((p1 - v) - v / w * (p2 - w)) / p2) by (field; lra).
    unfold Rdiv at 1. rewrite Rabs_mult, (Rabs_pos_eq (/ p2)) by (left; apply Rinv_0_lt_compat; auto).
    apply Rmult_le_reg_r with p2; auto. rewrite Rmult_assoc, Rinv_l, Rmult_1_r by lra.
    assert (X : Rabs (v / w * (p2 - w)) <= 1 * (u * w)) by (apply abs_mul; [rewrite Rabs_pos_eq; lra|exact E2]).
    assert (Y : Rabs (p1 - v - v / w * (p2 - w)) <= u * w + u * w).
    { unfold Rminus at 1. apply abs_add; [|rewrite Rabs_Ropp; lra].
      eapply Rle_trans; [exact E1|]. apply Rmult_le_compat_l; lra. }
    eapply Rle_trans; [exact Y|]. apply Rabs_le_inv in E2.
    assert (Z : u * w <= w / 64) by nra. assert (63 / 64 * w <= p2) by lra. nra. }
  replace (rnd (p1 / p2) - v / w) with ((rnd (p1 / p2) - p1 / p2) + (p1 / p2 - v / w)) by ring.
  eapply Rle_trans; [apply abs_add; [exact E3|exact E4]|]. lra.
Qed.

(** ** Any number of axes *)
Section Tens.
Variables (c : cfg) (dims os : list Z) (Vh : list Z -> fl) (Ls : list ((Z -> R) -> R)).
Variables (th : nat -> fl) (t : nat -> R) (tau delta A : R).
Notation gamma := (8 * u + 2 * tau + 4 * delta).
Notation N := (length dims).
Notation V := (fun idx => B2R (Vh idx)).
Hypothesis Hos : foot_in 2 dims os.
Hypothesis HLs : lfs dims Ls.
Hypothesis Hmean : Forall2 (fun d (L : (Z -> R) -> R) => forall f m M, (forall i, (0 <= i < d)%Z -> m <= f i <= M) -> m <= L f <= M) dims Ls.
Hypothesis HV : forall idx, fin (Vh idx) /\ Rabs (V idx) <= A.
Hypothesis Htau : 0 <= tau.
Hypothesis Hdelta : 0 <= delta.
Hypothesis Hth : forall k, (k < N)%nat -> fin (th k) /\ Rabs (B2R (th k) - t k) <= tau /\ - delta <= t k <= 1 + delta.
Hypothesis Hpiece : forall k f M, (k < N)%nat -> (forall i, (0 <= i < nth k dims 0)%Z -> Rabs (f i) <= M) ->
  Rabs ((f (nth k os 0%Z) + t k * (f (nth k os 0 + 1)%Z - f (nth k os 0%Z))) - nth k Ls (fun _ => 0) f) <= 4 * delta * M.
Hypothesis Hgamma : 9 * INR N * gamma <= 1.
Hypothesis HA : A <= bpow radix2 (emax - 4).

Lemma A_pos : 0 <= A.
Proof using HV. destruct (HV []) as (_ & H). eapply Rle_trans; [apply Rabs_pos|exact H]. Qed.

Lemma tens_error k suf : (k <= N)%nat ->
  fin (tens 2 Vh (fun j => lin_nd o c (th j)) os k suf) /\
  Rabs (B2R (tens 2 Vh (fun j => lin_nd o c (th j)) os k suf)
        - tenL (firstn k Ls) (fun idx => V (idx ++ suf))) <= INR k * (9 / 8 * gamma * A + 3 * eta).
Proof using All.
  assert (U := u_pos). assert (Eta := eta_pos). destruct eta_small as (N1 & N2); auto. assert (A0 := A_pos).
  assert (G0 : 0 < gamma) by lra.
  assert (LL : length Ls = N) by (symmetry; apply (Forall2_len _ _ _ _ _ HLs)).
  revert suf. induction k as [|k IH]; intros suf Hk.
  { split; [apply HV|]. cbn [tens firstn tenL app]. rewrite Rminus_diag_eq by reflexivity. rewrite Rabs_R0. simpl. lra. }
  assert (HLk : lfs (firstn k dims) (firstn k Ls)).
  { apply Forall2_firstn. exact HLs. }
  assert (HL : lf (nth k dims 0%Z) (nth k Ls (fun _ => 0))) by (apply (Forall2_nth_lt _ _ _ _ _ k 0%Z (fun _ => 0) HLs); lia).
  assert (E : firstn (S k) Ls = firstn k Ls ++ [nth k Ls (fun _ => 0)]).
  { clear - Hk LL. rewrite <- LL in Hk. clear LL. revert k Hk. induction Ls as [|L Ls' IH]; intros k Hk; simpl in *; [lia|].
    destruct k; auto. simpl. f_equal. apply IH. lia. }
  rewrite E, (tenL_snoc _ HLk HL). cbn [tens seq map].
  set (z := nth k os 0%Z).
  change (Z.of_nat 0) with 0%Z. change (Z.of_nat 1) with 1%Z. rewrite Z.add_0_r.
  set (g := fun i => tenL (firstn k Ls) (fun idx => B2R (Vh ((idx ++ [i]) ++ suf)))).
  change (nth k Ls (fun _ => 0) (fun i => tenL (firstn k Ls) (fun idx => B2R (Vh ((idx ++ [i]) ++ suf))))) with (nth k Ls (fun _ => 0) g).
  assert (Eg : forall i, g i = tenL (firstn k Ls) (fun idx => V (idx ++ i :: suf))).
  { intros i. unfold g. apply (tenL_ext _ _ HLk). intros idx _. rewrite <- app_assoc. reflexivity. }
  assert (Bg : forall i, Rabs (g i) <= A).
  { intros i. apply Rabs_le. unfold g.
    apply (@tenL_bounds (firstn k Ls) (map (fun d z => (0 <= z < d)%Z) (firstn k dims))).
    - assert (M := Forall2_firstn _ _ _ k _ _ Hmean). clear - M. induction M; simpl; constructor; auto.
    - intros idx _. apply Rabs_le_inv. apply HV. }
  destruct (IH (z :: suf) ltac:(lia)) as (F0 & E0). destruct (IH ((z + 1)%Z :: suf) ltac:(lia)) as (F1 & E1).
  rewrite <- Eg in E0, E1.
  set (f0 := tens 2 Vh _ os k (z :: suf)) in *. set (f1 := tens 2 Vh _ os k ((z + 1)%Z :: suf)) in *.
  set (K := INR k * (9 / 8 * gamma * A + 3 * eta)) in *.
  (* size of the error so far *)
  assert (Kk : INR k + 1 <= INR N) by (rewrite <- S_INR; apply le_INR; lia).
  assert (K0 : 0 <= INR k) by apply pos_INR.
  assert (Kg : 9 * INR k * gamma <= 1) by nra.
  assert (GA : gamma * K <= gamma * A / 8 + eta).
  { unfold K. replace (gamma * (INR k * (9 / 8 * gamma * A + 3 * eta))) with
      ((9 * INR k * gamma) * (gamma * A / 8) + (9 * INR k * gamma) * (eta / 3)) by field.
    assert (0 <= gamma * A) by (apply Rmult_le_pos; lra).
    assert (9 * INR k * gamma * (gamma * A / 8) <= 1 * (gamma * A / 8)) by (apply Rmult_le_compat_r; lra).
    assert (9 * INR k * gamma * (eta / 3) <= 1 * (eta / 3)) by (apply Rmult_le_compat_r; lra). lra. }
  assert (KB : K <= bpow radix2 (emax - 4)).
  { unfold K. replace (INR k * (9 / 8 * gamma * A + 3 * eta)) with ((9 * INR k * gamma) * (A / 8) + 3 * INR k * eta) by field.
    assert (9 * INR k * gamma * (A / 8) <= 1 * (A / 8)) by (apply Rmult_le_compat_r; lra).
    assert (Ku : 72 * INR k * u <= 1) by nra.
    assert (EE : bpow radix2 emin = u * bpow radix2 (3 - emax)) by (rewrite <- bpow_plus; f_equal; lia).
    assert (XX : bpow radix2 (3 - emax) <= bpow radix2 (emax - 4)).
    { apply bpow_le. assert (P := prec_6). unfold Prec_lt_emax in He. lia. }
    assert (Xp := bpow_gt_0 radix2 (3 - emax)).
    assert (3 * INR k * eta <= bpow radix2 (emax - 4) / 48).
    { rewrite EE. replace (3 * INR k * (/ 2 * (u * bpow radix2 (3 - emax)))) with ((72 * INR k * u) * (bpow radix2 (3 - emax) / 48)) by field.
      assert (72 * INR k * u * (bpow radix2 (3 - emax) / 48) <= 1 * (bpow radix2 (3 - emax) / 48)) by (apply Rmult_le_compat_r; lra). lra. }
    lra. }
  assert (X3 : bpow radix2 (emax - 3) = 2 * bpow radix2 (emax - 4)).
  { replace (emax - 3)%Z with (1 + (emax - 4))%Z by lia. rewrite bpow_plus. reflexivity. }
  assert (K00 : 0 <= K). { eapply Rle_trans; [apply Rabs_pos|exact E0]. }
  assert (B0 : Rabs (B2R f0) <= A + K).
  { specialize (Bg z). replace (B2R f0) with (g z + (B2R f0 - g z)) by ring. apply abs_add; auto. }
  assert (B1 : Rabs (B2R f1) <= A + K).
  { specialize (Bg (z + 1)%Z). replace (B2R f1) with (g (z + 1)%Z + (B2R f1 - g (z + 1)%Z)) by ring. apply abs_add; auto. }
  destruct (Hth k ltac:(lia)) as (Ft & Et & Rt).
  assert (TD : tau + delta <= / 4).
  { assert (1 <= INR N) by lra. nra. }
  destruct (lin_nd_error c (th k) f0 f1 (t k) tau delta (A + K) Ft F0 F1 Htau Hdelta TD Et Rt B0 B1 ltac:(lra)) as (F & Er).
  split; [exact F|].
  assert (P := Hpiece k g A ltac:(lia) (fun i _ => Bg i)). fold z in P.
  set (r := B2R (lin_nd o c (th k) [f0; f1])) in *.
  assert (D : Rabs ((B2R f0 + t k * (B2R f1 - B2R f0)) - (g z + t k * (g (z + 1)%Z - g z))) <= (1 + 2 * delta) * K).
  { replace (_ - _) with ((1 - t k) * (B2R f0 - g z) + t k * (B2R f1 - g (z + 1)%Z)) by ring.
    apply Rabs_le_inv in E0. apply Rabs_le_inv in E1. apply Rabs_le.
    destruct (Rle_lt_dec (t k) 0); [|destruct (Rle_lt_dec (t k) 1)]; split; nra. }
  replace (r - nth k Ls (fun _ => 0) g) with
    ((r - (B2R f0 + t k * (B2R f1 - B2R f0))) + (((B2R f0 + t k * (B2R f1 - B2R f0)) - (g z + t k * (g (z + 1)%Z - g z)))
      + ((g z + t k * (g (z + 1)%Z - g z)) - nth k Ls (fun _ => 0) g))) by ring.
  eapply Rle_trans; [apply abs_add; [exact Er|apply abs_add; [exact D|exact P]]|].
  rewrite S_INR. replace ((INR k + 1) * (9 / 8 * gamma * A + 3 * eta)) with (K + (9 / 8 * gamma * A + 3 * eta)) by (unfold K; ring).
  assert (0 <= delta * K) by (apply Rmult_le_pos; lra).
  assert (0 <= delta * A) by (apply Rmult_le_pos; lra). lra.
Qed.
End Tens.
End Node.

Lemma lin1_mean a x f m M : good_axis 2 a -> coord a 0 <= x <= coord a (npts a - 1) ->
  (forall i, (0 <= i < npts a)%Z -> m <= f i <= M) -> m <= lin1 a x f <= M.
Proof.
  intros (Ia & Na) Hx Hf. destruct (in_cell_ex a Na x) as (z & Hz & H0 & H1).
  apply (lin1_bounds Ia Na) with (o := z); auto.
  - split; [destruct H0 as [-> |]; lra|]. destruct H1 as [-> |]; auto.
    replace (npts a - 2 + 1)%Z with (npts a - 1)%Z by lia. lra.
  - intros i Hi. apply Hf. lia.
Qed.

Lemma entry_real dims (vals : list fl) idx :
  entry 0 dims (map B2R vals) idx = B2R (entry (fzero o) dims vals idx).
Proof. unfold entry. change 0 with (B2R (fzero o)) at 1. apply map_nth. Qed.
Lemma entry_bound dims (vals : list fl) A idx : 0 <= A -> Forall (fun v => fin v /\ Rabs (B2R v) <= A) vals ->
  fin (entry (fzero o) dims vals idx) /\ Rabs (B2R (entry (fzero o) dims vals idx)) <= A.
Proof.
  intros HA H. unfold entry. destruct (nth_in_or_default (Z.to_nat (cindex dims idx)) vals (fzero o)) as [I|E].
  - rewrite Forall_forall in H. apply H; auto.
  - rewrite E. split; [reflexivity|]. simpl. rewrite Rabs_R0. auto.
Qed.
Lemma nth_B2R l k : nth k (map B2R l) 0 = B2R (nth k l (fzero o)).
Proof. change 0 with (B2R (fzero o)) at 1. apply map_nth. Qed.
Lemma zlen_map A B (f : A -> B) l : zlen (map f l) = zlen l.
Proof. unfold zlen. rewrite map_length. reflexivity. Qed.

(** ** Rectilinear grids *)
Lemma increasing_B2R g : increasing_grid o g -> Forall (fun v => fin v) g -> strictly_increasing (map (@B2R prec emax) g).
Proof.
  induction g as [|a g IH]; intros I F; simpl; constructor.
  - apply IH; [|inversion F; auto]. intros i j v w Hij Hi Hj. apply (I (S i) (S j)); auto. lia.
  - rewrite Forall_map, Forall_forall. intros b Hb. apply In_nth_error in Hb as (n & Hn).
    inversion F as [|? ? Fa Fg]; subst. rewrite Forall_forall in Fg.
    apply (@ltb_fin _ _ Hp He); auto; [apply Fg; eapply nth_error_In; eauto|]. apply (I 0%nat (S n)); auto; lia.
Qed.

Theorem error_rectilinear c grids vals eval x A :
  float_rectilinear Hp He c grids vals eval ->
  Forall (increasing_grid o) grids -> Forall (Forall (@moderate prec emax)) grids ->
  Forall (fun v => fin v) x -> SpecReal.inside_grid (rect_axes (map (map B2R) grids)) (map B2R x) ->
  0 <= A -> Forall (fun v => fin v /\ Rabs (B2R v) <= A) vals -> A <= bpow radix2 (emax - 4) ->
  126 * INR (length grids) * u <= 1 ->
  Forall (good_axis 2) (rect_axes (map (map (@B2R prec emax)) grids)) /\
  exists y, eval x = Ok y /\ fin y /\
  Rabs (B2R y - tenL (ops1 lin1 (rect_axes (map (map B2R) grids)) (map B2R x))
                     (entry 0 (map npts (rect_axes (map (map (@B2R prec emax)) grids))) (map B2R vals)))
   <= INR (length grids) * (16 * u * A + 3 * eta).
Proof.
  intros H I S Fx In A0 Hv HA HN.
  destruct (float_rectilinear_inv _ _ _ _ _ _ _ _ H) as (W & E).
  assert (W' := W). destruct W' as (W0 & _ & W2 & W3). cbn [g_grids g_dims g_vals] in *.
  assert (La : length (rect_axes (map (map (@B2R prec emax)) grids)) = length grids) by (unfold rect_axes; rewrite !map_length; auto).
  assert (Lx : length x = length grids) by (rewrite <- La, <- (proj1 In), map_length; auto). rewrite E by auto.
  assert (Good : Forall (good_axis 2) (rect_axes (map (map (@B2R prec emax)) grids))).
  { apply rect_axes_good; unfold grids_ok; rewrite Forall_map.
    - rewrite Forall_forall in *. intros g Hg. apply increasing_B2R; auto.
      eapply Forall_impl; [|exact (S g Hg)]. intros v (Fv & _). exact Fv.
    - eapply Forall_impl; [|exact W2]. intros g Hg. rewrite zlen_map. exact Hg. }
  split; [exact Good|].
  eexists. split; [reflexivity|].
  assert (U := u_pos).
  assert (N1 : 1 <= INR (length grids)).
  { change 1 with (INR 1). apply le_INR. lia. }
  assert (Hu : u <= / 64) by nra.
  assert (Dm : map npts (rect_axes (map (map (@B2R prec emax)) grids)) = map zlen grids).
  { rewrite rect_axes_npts, map_map. apply map_ext. intros g. apply zlen_map. }
  assert (Lm : length (map B2R x) = length (rect_axes (map (map (@B2R prec emax)) grids))) by (rewrite map_length; lia).
  assert (LF := good_lin _ Lm Good). rewrite Dm in *.
  assert (LD : length (map zlen grids) = length grids) by apply map_length.
  set (axes := rect_axes (map (map (@B2R prec emax)) grids)) in *.
  assert (NA : forall k, (k < length grids)%nat -> nth k axes ax0 = list_axis (map B2R (nth k grids []))).
  { intros k Hk. unfold axes. rewrite rect_axes_nth by (rewrite map_length; auto).
    rewrite (nth_indep (map (map (@B2R prec emax)) grids) [] (map (@B2R prec emax) [])) by (rewrite map_length; auto). rewrite (map_nth (map (@B2R prec emax))). reflexivity. }
  assert (D2 : forall k, (k < length grids)%nat -> (2 <= zlen (nth k grids []))%Z) by (intros; apply (Forall_nth_lt [] W2); auto).
  assert (Cell : forall k, (k < length grids)%nat -> exists a b,
    let g := nth k grids [] in let z := rect_cell o g (nth k x (fzero o)) in
    gz o g z = a /\ gz o g (z + 1) = b /\ small a /\ small b /\ small (nth k x (fzero o)) /\
    B2R a <= B2R (nth k x (fzero o)) <= B2R b /\ B2R a < B2R b).
  { intros k Hk. assert (D := D2 k Hk).
    assert (Fk : fin (nth k x (fzero o))) by (apply (Forall_nth_lt (fzero o) Fx); lia).
    assert (Rx := proj2 In k (nth k axes ax0) ltac:(apply nth_error_nth_some; lia)).
    rewrite NA, nth_B2R in Rx by auto. unfold list_axis in Rx. cbn [coord npts] in Rx. rewrite zlen_map, !nth_B2R in Rx.
    set (g := nth k grids []) in *. assert (Sk := Forall_nth_lt [] S Hk : Forall (@moderate prec emax) g).
    assert (Fg : forall n, (n < length g)%nat -> fin (nth n g (fzero o))).
    { intros n Hn. apply (proj1 (Forall_nth_lt (fzero o) Sk Hn)). }
    unfold zlen in D, Rx.
    assert (H0 : fle o (nth 0 g (fzero o)) (nth k x (fzero o)) = true) by (apply leb_fin; [apply Fg; lia|auto|apply Rx]).
    assert (H1 : fle o (nth k x (fzero o)) (last g (fzero o)) = true).
    { rewrite last_nth. replace (length g - 1)%nat with (Z.to_nat (Z.of_nat (length g) - 1)) by lia. apply leb_fin; [auto|apply Fg; lia|apply Rx]. }
    destruct (inside_cell _ _ _ _ g (nth k x (fzero o)) (fzero o) (Forall_nth_lt [] I Hk) D Sk Fk H0 H1) as (a & b & Ea & Eb & R).
    exists a, b. cbv zeta. unfold gz. rewrite (nth_error_nth _ _ _ Ea), (nth_error_nth _ _ _ Eb). auto. }
  assert (Hnd : forall k, (k < length grids)%nat -> nth k (ops1 lin1 axes (map B2R x)) (fun _ => 0) = lin1 (list_axis (map B2R (nth k grids []))) (B2R (nth k x (fzero o)))).
  { intros k Hk. rewrite ops1_nth by (rewrite ?map_length; lia). rewrite NA by auto. rewrite nth_B2R. reflexivity. }
  set (os := rect_cells o (mkRect grids (map zlen grids) vals) x).
  set (th := fun k => rect_dtp o (nth k grids []) (nth k x (fzero o)) (rect_cell o (nth k grids []) (nth k x (fzero o)))).
  set (t := fun k => local_coord (list_axis (map B2R (nth k grids []))) (B2R (nth k x (fzero o))) (rect_cell o (nth k grids []) (nth k x (fzero o)))).
  assert (LC : forall k a b, (k < length grids)%nat -> gz o (nth k grids []) (rect_cell o (nth k grids []) (nth k x (fzero o))) = a ->
     gz o (nth k grids []) (rect_cell o (nth k grids []) (nth k x (fzero o)) + 1) = b ->
     coord (list_axis (map B2R (nth k grids []))) (rect_cell o (nth k grids []) (nth k x (fzero o))) = B2R a /\
     coord (list_axis (map B2R (nth k grids []))) (rect_cell o (nth k grids []) (nth k x (fzero o)) + 1) = B2R b).
  { intros k a b Hk <- <-. unfold list_axis. cbn [coord]. rewrite !nth_B2R. auto. }
  assert (Good' : forall k, (k < length grids)%nat -> good_axis 2 (list_axis (map B2R (nth k grids [])))).
  { intros k Hk. rewrite <- NA by auto. apply (Forall_nth_lt ax0 Good). lia. }
  destruct (tens_error Hu c (map zlen grids) os (entry (fzero o) (map zlen grids) vals) (ops1 lin1 axes (map B2R x)) th t (3 * u) 0 A) with (k := length (map (@zlen fl) grids)) (suf := @nil Z) as (F & Er).
  - exact (@rect_cells_foot _ o _ x W).
  - exact LF.
  - apply Forall2_nth_intro with (da := 0%Z) (db := fun _ : Z -> R => 0); [rewrite ops1_length by auto; lia|].
    intros k Hk f m M Hf. rewrite LD in Hk. rewrite Hnd by auto.
    apply lin1_mean; auto.
    + destruct (Cell k Hk) as (a & b & Ea & Eb & _ & _ & _ & R & _). destruct (LC k a b Hk Ea Eb) as (Ca & Cb).
      destruct (Good' k Hk) as (Ia & Na).
      assert (Rz := @rect_cell_range fl o (nth k grids []) (nth k x (fzero o)) (D2 k Hk)).
      assert (Np : npts (list_axis (map (@B2R prec emax) (nth k grids []))) = zlen (nth k grids [])) by apply zlen_map.
      split.
      * eapply Rle_trans; [|exact (proj1 R)]. rewrite <- Ca. apply (axis_le Ia); rewrite ?Np; lia.
      * eapply Rle_trans; [exact (proj2 R)|]. rewrite <- Cb. apply (axis_le Ia); rewrite ?Np; lia.
    + intros i Hi. apply Hf. cbn [list_axis npts] in Hi. rewrite zlen_map in Hi.
      rewrite (nth_indep _ 0%Z (zlen (@nil fl))) by (rewrite map_length; auto). rewrite map_nth. exact Hi.
  - intros idx. apply entry_bound; auto.
  - lra.
  - lra.
  - intros k Hk. rewrite LD in Hk. destruct (Cell k Hk) as (a & b & Ea & Eb & Sa & Sb & Sx & R & R').
    destruct (position_error Hu a b _ Sa Sb Sx R R') as (F & Er & Rg).
    destruct (LC k a b Hk Ea Eb) as (Ca & Cb).
    unfold th, t, rect_dtp, local_coord. rewrite Ca, Cb, Ea, Eb. repeat split; auto; lra.
  - intros k f M Hk _. rewrite LD in Hk. rewrite Hnd by auto. unfold os. rewrite rect_cells_nth by auto. cbn [g_grids].
    destruct (Good' k Hk) as (Ia & Na).
    assert (Rz := @rect_cell_range fl o (nth k grids []) (nth k x (fzero o)) (D2 k Hk)).
    destruct (Cell k Hk) as (a & b & Ea & Eb & _ & _ & _ & R & _). destruct (LC k a b Hk Ea Eb) as (Ca & Cb).
    rewrite (@lin1_weights _ Ia Na _ f (rect_cell o (nth k grids []) (nth k x (fzero o)))).
    2:{ split; [cbn [list_axis npts]; rewrite zlen_map; lia|]. rewrite Ca, Cb. split; right; apply R. }
    fold (t k). rewrite Rminus_diag_eq by ring. rewrite Rabs_R0. lra.
  - rewrite LD. lra.
  - exact HA.
  - lia.
  - rewrite LD in Er, F. unfold mlc_value. cbn [g_grids g_dims g_vals]. fold os.
    split; [exact F|].
    assert (LO : length (ops1 lin1 axes (map B2R x)) = length grids) by (rewrite ops1_length by auto; lia).
    replace (firstn (length grids) (ops1 lin1 axes (map B2R x))) with (ops1 lin1 axes (map B2R x)) in Er by (rewrite <- LO, firstn_all; reflexivity).
    rewrite (tenL_ext _ (fun idx => B2R (entry (fzero o) (map zlen grids) vals (idx ++ []))) LF).
    2:{ intros idx _. rewrite app_nil_r. apply entry_real. }
    eapply Rle_trans; [exact Er|]. apply Rmult_le_compat_l; [lra|]. nra.
Qed.

(** ** Regular grids *)
Lemma rnd_div_error (x : R) k : 0 < k -> forall p, Rabs (p - x) <= u * Rabs x -> Rabs (p / k - x / k) <= u * Rabs (x / k).
Proof.
  intros Hk p H. unfold Rdiv. rewrite <- Rmult_minus_distr_r, !Rabs_mult, <- Rmult_assoc.
  apply Rmult_le_compat_r; [apply Rabs_pos|exact H].
Qed.

Lemma to_isize_fits (q : fl) : fin q -> - IZR (2 ^ 63) <= B2R q < IZR (2 ^ 63) ->
  to_isize o (ffloor o q) = Some (Zfloor (B2R q)).
Proof.
  intros F R. assert (Fl := proj2 (@floor_fin _ _ Hp He q) F). assert (Vl := @floor_val _ _ Hp He q).
  set (f := ffloor o q) in *. cbn [to_isize BOps]. unfold B_to_isize. rewrite Fl.
  assert (T : Btrunc f = Zfloor (B2R q)).
  { apply eq_IZR. rewrite Btrunc_correct by auto. rewrite Vl.
    unfold round, F2R, scaled_mantissa, cexp, FIX_exp. simpl. rewrite !Rmult_1_r. rewrite Ztrunc_IZR. reflexivity. }
  rewrite T.
  assert (L : (- 2 ^ 63 <= Zfloor (B2R q))%Z) by (apply Zfloor_lub; rewrite opp_IZR; apply R).
  assert (M : (Zfloor (B2R q) < 2 ^ 63)%Z).
  { apply lt_IZR. eapply Rle_lt_trans; [apply Zfloor_lb|apply R]. }
  replace (_ && _) with true; [reflexivity|]. symmetry. unfold isize_min, isize_max. lia.
Qed.

Section Axis.
Variables (start h x : fl) (d : Z) (kappa : R).
Notation s := (B2R start).
Notation w := (B2R h).
Notation X := (B2R x).
Notation E := (u * kappa).
Hypothesis Fs : fin start.
Hypothesis Fh : fin h.
Hypothesis Fx : fin x.
Hypothesis Ph : 0 < w.
Hypothesis Hd : (2 <= d)%Z.
Hypothesis Hs : Rabs s <= kappa * w.
Hypothesis Ht : Rabs (s + w * IZR (d - 1)) <= kappa * w.
Hypothesis Hk : kappa * w <= bpow radix2 (emax - 3).
Hypothesis HE : 504 * E <= 1.
Hypothesis Hx : s <= X <= s + w * IZR (d - 1).
Hypothesis Hprec : (prec <= 64)%Z.

Lemma kappa_half : / 2 <= kappa /\ IZR (d - 1) <= 2 * kappa.
Proof using All.
  apply Rabs_le_inv in Hs. apply Rabs_le_inv in Ht.
  assert (D : 1 <= IZR (d - 1)) by (apply IZR_le; lia).
  assert (IZR (d - 1) <= 2 * kappa).
  { apply Rmult_le_reg_l with w; auto. lra. }
  split; lra.
Qed.
Lemma u_small : u <= 2 * E /\ u <= / 64.
Proof using All.
  destruct kappa_half as (K1 & _). assert (U := u_pos).
  assert (u * / 2 <= E) by (apply Rmult_le_compat_l; lra). split; lra.
Qed.
Lemma size_bound : 252 * (2 * kappa) <= bpow radix2 prec.
Proof using All.
  assert (U := u_pos). assert (B : u * bpow radix2 prec = 1).
  { rewrite <- bpow_plus. replace (- prec + prec)%Z with 0%Z by lia. reflexivity. }
  apply Rmult_le_reg_l with u; auto. rewrite B. lra.
Qed.

Definition reg_pos : R := (X - s) / w.
Notation T := reg_pos.
Lemma T_eq : X = s + w * T.
Proof using All. unfold reg_pos. field. lra. Qed.
Lemma T_range : 0 <= T <= IZR (d - 1).
Proof using All.
  assert (Q := T_eq). split; apply Rmult_le_reg_l with w; auto; lra.
Qed.

(** The computed cell number. *)
Lemma cell_error : exists q : fl, q = fdiv o (fsub o x start) h /\ fin q /\ Rabs (B2R q - T) <= 6 * E /\
  to_isize o (ffloor o q) = Some (Zfloor (B2R q)).
Proof using All.
  destruct kappa_half as (K1 & K2). destruct u_small as (U2 & U64). destruct T_range as (T0 & T1).
  assert (U := u_pos). destruct (eta_small U64) as (N1 & _). assert (N := eta_pos). assert (SB := size_bound).
  assert (XS : 0 <= X - s <= 2 * (kappa * w)).
  { apply Rabs_le_inv in Hs. apply Rabs_le_inv in Ht. lra. }
  assert (B2 : bpow radix2 (emax - 1) = 4 * bpow radix2 (emax - 3)).
  { replace (emax - 1)%Z with (2 + (emax - 3))%Z by lia. rewrite bpow_plus. reflexivity. }
  assert (B0 := bpow_gt_0 radix2 (emax - 3)).
  destruct (sub_ok _ _ Hp He x start Fx Fs) as (F1 & V1); [apply rnd_lt; rewrite Rabs_pos_eq; lra|].
  assert (E1 := rnd_rel (X - s) ltac:(apply on_grid_sub; apply on_grid_fl)). rewrite <- V1 in E1.
  assert (E2 := rnd_div_error (X - s) w Ph _ E1). fold reg_pos in E2. rewrite (Rabs_pos_eq T) in E2 by auto.
  set (p := fsub o x start) in *.
  assert (UT : u * T <= 2 * E).
  { replace (2 * E) with (u * (2 * kappa)) by ring. apply Rmult_le_compat_l; lra. }
  assert (UT0 : 0 <= u * T) by (apply Rmult_le_pos; lra).
  assert (A2 : Rabs (B2R p / w) <= T + u * T).
  { apply Rabs_le_inv in E2. apply Rabs_le. lra. }
  assert (Small : T + u * T <= bpow radix2 (emax - 1)).
  { apply Rle_trans with (bpow radix2 prec).
    - assert (u * T <= 1 * T) by (apply Rmult_le_compat_r; lra). lra.
    - apply bpow_le. unfold Prec_lt_emax in He. lia. }
  destruct (div_ok _ _ Hp He p h F1 ltac:(lra)) as (F2 & V2); [apply rnd_lt; lra|].
  assert (E3 := rnd_abs (B2R p / w)). rewrite <- V2 in E3.
  exists (fdiv o p h). set (q := fdiv o p h) in *. split; [reflexivity|]. split; [exact F2|].
  assert (E4 : Rabs (B2R q - T) <= 6 * E).
  { replace (B2R q - T) with ((B2R q - B2R p / w) + (B2R p / w - T)) by ring.
    eapply Rle_trans; [apply abs_add; [exact E3|exact E2]|].
    assert (u * Rabs (B2R p / w) <= u * (T + u * T)) by (apply Rmult_le_compat_l; lra).
    assert (u * (u * T) <= / 64 * (u * T)) by (apply Rmult_le_compat_r; lra). lra. }
  split; [exact E4|]. apply to_isize_fits; auto.
  assert (P64 : bpow radix2 prec <= 2 * IZR (2 ^ 63)).
  { apply Rle_trans with (bpow radix2 64); [apply bpow_le; auto|]. simpl. lra. }
  assert (P63 : 1 <= IZR (2 ^ 63)) by (apply IZR_le; lia).
  apply Rabs_le_inv in E4. split; lra.
Qed.

Notation a := (mkAxis d (fun i => s + w * IZR i)).

Lemma cell_ok : exists i, reg_cell o start h d x = Ok i /\ (0 <= i <= d - 2)%Z /\ - (6 * E) <= T - IZR i <= 1 + 6 * E.
Proof using All.
  destruct cell_error as (q & Eq & _ & Er & Ei). destruct T_range as (T0 & T1).
  exists (Z.min (Z.max (Zfloor (B2R q)) 0) (d - 2)). split.
  { unfold reg_cell. rewrite <- Eq, Ei. reflexivity. }
  split; [lia|]. apply Rabs_le_inv in Er.
  assert (L := Zfloor_lb (B2R q)). assert (M := Zfloor_ub (B2R q)). set (z := Zfloor (B2R q)) in *.
  assert (E0 : 0 < E).
  { destruct kappa_half. apply Rmult_lt_0_compat; [apply u_pos|lra]. }
  destruct (Z_lt_le_dec z 0) as [Lz|Lz]; [|destruct (Z_lt_le_dec (d - 2) z) as [Lz'|Lz']].
  - replace (Z.min _ _) with 0%Z by lia.
    assert (IZR z + 1 <= 0) by (rewrite <- plus_IZR; apply IZR_le; lia). split; lra.
  - replace (Z.min _ _) with (d - 2)%Z by lia. rewrite minus_IZR in *.
    assert (IZR d - 1 <= IZR z) by (rewrite <- minus_IZR; apply IZR_le; lia). split; lra.
  - replace (Z.min _ _) with z by lia. split; lra.
Qed.

Lemma coord_size i : (0 <= i <= d - 1)%Z -> Rabs (s + w * IZR i) <= kappa * w.
Proof using All.
  intros Hi. apply Rabs_le_inv in Hs. apply Rabs_le_inv in Ht.
  assert (0 <= IZR i) by (apply IZR_le; lia). assert (IZR i <= IZR (d - 1)) by (apply IZR_le; lia).
  assert (0 <= w * IZR i) by (apply Rmult_le_pos; lra).
  assert (w * IZR i <= w * IZR (d - 1)) by (apply Rmult_le_compat_l; lra).
  apply Rabs_le. lra.
Qed.

(** The computed coordinate of node [i]. *)
Lemma node_error_any fma i : (0 <= i <= d - 1)%Z ->
  let m := if fma : bool then fmuladd o h (uf o i) start else fadd o start (fmul o h (uf o i)) in
  fin m /\ Rabs (B2R m - (s + w * IZR i)) <= 31 / 10 * (E * w).
Proof using All.
  intros Hi. destruct kappa_half as (K1 & K2). destruct u_small as (U2 & U64). assert (U := u_pos). assert (SB := size_bound).
  assert (Cs := coord_size i ltac:(lia)). assert (E0 : 0 <= E) by lra.
  assert (EW : 0 <= E * w) by (apply Rmult_le_pos; lra).
  assert (I0 : 0 <= IZR i) by (apply IZR_le; lia). assert (I1 : IZR i <= IZR (d - 1)) by (apply IZR_le; lia).
  assert (Uf : fin (uf o i) /\ B2R (uf o i) = IZR i).
  { unfold uf. destruct (@of_usize_some _ _ Hp He i) as (v & Ev). rewrite Ev. apply (@of_usize_spec _ _ Hp He _ _ Ev).
    rewrite Z.abs_eq by lia. apply le_IZR. change 2%Z with (radix_val radix2).
    rewrite IZR_Zpower by (unfold Prec_gt_0 in Hp; lia). lra. }
  destruct Uf as (Fu & Vu).
  assert (B2 : bpow radix2 (emax - 1) = 4 * bpow radix2 (emax - 3)).
  { replace (emax - 1)%Z with (2 + (emax - 3))%Z by lia. rewrite bpow_plus. reflexivity. }
  assert (B0 := bpow_gt_0 radix2 (emax - 3)).
  assert (WI0 : 0 <= w * IZR i) by (apply Rmult_le_pos; lra).
  assert (WI : w * IZR i <= 2 * (kappa * w)).
  { replace (2 * (kappa * w)) with (w * (2 * kappa)) by ring. apply Rmult_le_compat_l; lra. }
  destruct fma; cbv zeta.
  - assert (Q : w * B2R (uf o i) + s = s + w * IZR i) by (rewrite Vu; ring).
    destruct (fma_ok _ _ Hp He h (uf o i) start Fh Fu Fs) as (F & V); [rewrite Q; apply rnd_lt; lra|].
    split; [exact F|]. rewrite V, Q.
    eapply Rle_trans; [apply rnd_rel; apply on_grid_add; [apply on_grid_fl|apply on_grid_mulz, on_grid_fl]|].
    replace (31 / 10 * (E * w)) with (u * (kappa * w) + 21 / 10 * (E * w)) by field.
    assert (u * Rabs (s + w * IZR i) <= u * (kappa * w)) by (apply Rmult_le_compat_l; lra). lra.
  - destruct (mul_ok _ _ Hp He h (uf o i) Fh Fu) as (F1 & V1).
    { rewrite Vu. apply rnd_lt. rewrite Rabs_pos_eq by lra. lra. }
    rewrite Vu in V1. assert (E1 := rnd_rel (w * IZR i) ltac:(apply on_grid_mulz, on_grid_fl)). rewrite <- V1 in E1.
    rewrite (Rabs_pos_eq (w * IZR i)) in E1 by lra.
    set (p := fmul o h (uf o i)) in *.
    assert (E1' : Rabs (B2R p - w * IZR i) <= 2 * (E * w)).
    { eapply Rle_trans; [exact E1|]. replace (2 * (E * w)) with (u * (2 * (kappa * w))) by ring. apply Rmult_le_compat_l; lra. }
    assert (UE : E * w <= / 504 * w) by (apply Rmult_le_compat_r; lra).
    assert (UEu : u * (E * w) <= / 64 * (E * w)) by (apply Rmult_le_compat_r; lra).
    assert (EKW : E * w <= / 64 * (kappa * w)).
    { rewrite Rmult_assoc. apply Rmult_le_compat_r; [|lra]. apply Rmult_le_pos; lra. }
    assert (S1 : Rabs (s + B2R p) <= kappa * w + 2 * (E * w)).
    { replace (s + B2R p) with ((s + w * IZR i) + (B2R p - w * IZR i)) by ring. apply abs_add; auto. }
    destruct (add_ok _ _ Hp He start p Fs F1) as (F2 & V2); [apply rnd_lt; lra|].
    split; [exact F2|]. rewrite V2.
    assert (E2 := rnd_rel (s + B2R p) ltac:(apply on_grid_add; apply on_grid_fl)).
    replace (rnd (s + B2R p) - (s + w * IZR i)) with ((rnd (s + B2R p) - (s + B2R p)) + (B2R p - w * IZR i)) by ring.
    eapply Rle_trans; [apply abs_add; [exact E2|exact E1']|].
    assert (u * Rabs (s + B2R p) <= u * (kappa * w + 2 * (E * w))) by (apply Rmult_le_compat_l; lra). lra.
Qed.

Lemma node_error fma i : (0 <= i <= d - 2)%Z ->
  let m := if fma : bool then fmuladd o h (uf o i) start else fadd o start (fmul o h (uf o i)) in
  fin m /\ Rabs (B2R m - (s + w * IZR i)) <= 31 / 10 * (E * w).
Proof using All. intros Hi. apply (node_error_any fma i). lia. Qed.

Lemma reg_position_error fma i : (0 <= i <= d - 2)%Z -> - (6 * E) <= T - IZR i <= 1 + 6 * E ->
  fin (reg_dtp o fma start h x i) /\ Rabs (B2R (reg_dtp o fma start h x i) - (T - IZR i)) <= 8 * E.
Proof using All.
  intros Hi Hti. destruct kappa_half as (K1 & K2). destruct u_small as (U2 & U64). assert (U := u_pos).
  destruct (eta_small U64) as (N1 & _). assert (N := eta_pos).
  destruct (node_error fma i Hi) as (Fm & Em). unfold reg_dtp. set (m := if fma then _ else _) in *.
  assert (Q := T_eq). set (t := T - IZR i) in *. assert (E0 : 0 <= E) by lra.
  assert (EW : 0 <= E * w) by (apply Rmult_le_pos; lra).
  assert (UE : E * w <= / 504 * w) by (apply Rmult_le_compat_r; lra).
  assert (D1 : Rabs ((X - B2R m) - w * t) <= 31 / 10 * (E * w)).
  { replace ((X - B2R m) - w * t) with (- (B2R m - (s + w * IZR i))) by (unfold t; rewrite Q at 1; ring). rewrite Rabs_Ropp. exact Em. }
  assert (WT : Rabs (w * t) <= w + 6 * (E * w)).
  { rewrite Rabs_mult, (Rabs_pos_eq w) by lra. replace (w + 6 * (E * w)) with (w * (1 + 6 * E)) by ring.
    apply Rmult_le_compat_l; [lra|]. apply Rabs_le. lra. }
  assert (D2 : Rabs (X - B2R m) <= 102 / 100 * w).
  { replace (X - B2R m) with ((X - B2R m - w * t) + w * t) by ring. eapply Rle_trans; [apply abs_add; [exact D1|exact WT]|]. lra. }
  assert (B2 : bpow radix2 (emax - 1) = 4 * bpow radix2 (emax - 3)).
  { replace (emax - 1)%Z with (2 + (emax - 3))%Z by lia. rewrite bpow_plus. reflexivity. }
  assert (B0 := bpow_gt_0 radix2 (emax - 3)).
  assert (WK : w <= 2 * (kappa * w)).
  { replace (2 * (kappa * w)) with ((2 * kappa) * w) by ring. assert (1 * w <= 2 * kappa * w) by (apply Rmult_le_compat_r; lra). lra. }
  destruct (sub_ok _ _ Hp He x m Fx Fm) as (F1 & V1); [apply rnd_lt; lra|].
  assert (E1 := rnd_rel (X - B2R m) ltac:(apply on_grid_sub; apply on_grid_fl)). rewrite <- V1 in E1.
  set (p := fsub o x m) in *.
  assert (UW : u * w <= 2 * (E * w)).
  { replace (2 * (E * w)) with (2 * E * w) by ring. apply Rmult_le_compat_r; lra. }
  assert (D3 : Rabs (B2R p - w * t) <= 515 / 100 * (E * w)).
  { replace (B2R p - w * t) with ((B2R p - (X - B2R m)) + ((X - B2R m) - w * t)) by ring.
    eapply Rle_trans; [apply abs_add; [exact E1|exact D1]|].
    assert (u * Rabs (X - B2R m) <= u * (102 / 100 * w)) by (apply Rmult_le_compat_l; lra). lra. }
  assert (D4 : Rabs (B2R p / w - t) <= 515 / 100 * E).
  { replace (B2R p / w - t) with ((B2R p - w * t) / w) by (field; lra). unfold Rdiv.
    rewrite Rabs_mult, (Rabs_pos_eq (/ w)) by (left; apply Rinv_0_lt_compat; auto).
    apply Rmult_le_reg_r with w; auto. rewrite Rmult_assoc, Rinv_l, Rmult_1_r by lra. lra. }
  assert (D5 : Rabs (B2R p / w) <= 103 / 100).
  { apply Rabs_le_inv in D4. apply Rabs_le. lra. }
  assert (Big : 2 <= bpow radix2 (emax - 1)).
  { replace 2 with (bpow radix2 1) by reflexivity. apply bpow_le. assert (P := prec_6 U64). unfold Prec_lt_emax in He. lia. }
  destruct (div_ok _ _ Hp He p h F1 ltac:(lra)) as (F2 & V2); [apply rnd_lt; lra|].
  split; [exact F2|]. rewrite V2. assert (E3 := rnd_abs (B2R p / w)).
  replace (rnd (B2R p / w) - t) with ((rnd (B2R p / w) - B2R p / w) + (B2R p / w - t)) by ring.
  eapply Rle_trans; [apply abs_add; [exact E3|exact D4]|].
  assert (u * Rabs (B2R p / w) <= u * (103 / 100)) by (apply Rmult_le_compat_l; lra). lra.
Qed.

Lemma in_reg_cell j : (0 <= j <= d - 2)%Z -> 0 <= T - IZR j <= 1 -> in_cell a X j.
Proof using All.
  intros Hj R. split; [cbn [npts]; lia|]. cbn [coord]. rewrite plus_IZR.
  assert (Q := T_eq). assert (w * 0 <= w * (T - IZR j)) by (apply Rmult_le_compat_l; lra).
  assert (w * (T - IZR j) <= w * 1) by (apply Rmult_le_compat_l; lra). split; right; lra.
Qed.
Lemma reg_local j : local_coord a X j = T - IZR j.
Proof using All. unfold local_coord, reg_pos. cbn [coord]. rewrite plus_IZR. field. lra. Qed.

(** Using the wrong one of two neighbouring cells. *)
Lemma piece_error i f M : (0 <= i <= d - 2)%Z -> - (6 * E) <= T - IZR i <= 1 + 6 * E ->
  (forall j, (0 <= j < d)%Z -> Rabs (f j) <= M) ->
  Rabs ((f i + (T - IZR i) * (f (i + 1)%Z - f i)) - lin1 a X f) <= 4 * (6 * E) * M.
Proof using All.
  intros Hi Hti Hf. destruct T_range as (T0 & T1). assert (U2 := proj1 u_small). assert (U := u_pos). assert (E0 : 0 <= E) by lra.
  assert (Ia : increasing_axis a) by (apply reg_axis_inc; auto).
  assert (Na : (2 <= npts a)%Z) by (cbn [npts]; lia).
  assert (M0 : 0 <= M) by (eapply Rle_trans; [apply Rabs_pos|apply (Hf i); lia]).
  assert (EM : 0 <= 6 * E * M) by (apply Rmult_le_pos; lra).
  set (t := T - IZR i) in *.
  assert (Second : forall p q r v, Rabs p <= M -> Rabs q <= M -> Rabs r <= M -> Rabs v <= 6 * E ->
    Rabs (v * (p - 2 * q + r)) <= 4 * (6 * E) * M).
  { intros p q r v Hp' Hq Hr Hv. replace (4 * (6 * E) * M) with ((6 * E) * (4 * M)) by ring. apply abs_mul; auto.
    apply Rabs_le_inv in Hp'. apply Rabs_le_inv in Hq. apply Rabs_le_inv in Hr. apply Rabs_le. lra. }
  destruct (Rlt_le_dec t 0) as [C|C]; [|destruct (Rlt_le_dec 1 t) as [C'|C']].
  - assert (I1 : (1 <= i)%Z).
    { assert (0 < i)%Z; [|lia]. apply lt_IZR. unfold t in C. lra. }
    rewrite (@lin1_weights _ Ia Na _ f (i - 1)%Z) by (apply in_reg_cell; [lia|rewrite minus_IZR; fold t; unfold t in *; lra]).
    rewrite reg_local, minus_IZR. replace (i - 1 + 1)%Z with i by lia.
    replace (T - (IZR i - 1)) with (t + 1) by (unfold t; ring).
    replace (_ - _) with (t * (f (i + 1)%Z - 2 * f i + f (i - 1)%Z)) by ring.
    apply Second; try (apply Hf; lia). apply Rabs_le. lra.
  - assert (I1 : (i + 1 <= d - 2)%Z).
    { assert (i + 1 < d - 1)%Z; [|lia]. apply lt_IZR. rewrite plus_IZR. unfold t in C'. lra. }
    rewrite (@lin1_weights _ Ia Na _ f (i + 1)%Z) by (apply in_reg_cell; [lia|rewrite plus_IZR; unfold t in *; lra]).
    rewrite reg_local, plus_IZR. replace (T - (IZR i + 1)) with (t - 1) by (unfold t; ring).
    replace (_ - _) with (- (t - 1) * (f (i + 1 + 1)%Z - 2 * f (i + 1)%Z + f i)) by ring.
    apply Second; try (apply Hf; lia). apply Rabs_le. lra.
  - rewrite (@lin1_weights _ Ia Na _ f i) by (apply in_reg_cell; [lia|unfold t in *; lra]).
    rewrite reg_local. fold t. rewrite Rminus_diag_eq by ring. rewrite Rabs_R0. lra.
Qed.
End Axis.

(** The coordinates of a regular axis are at most [kappa] steps away from zero. *)
Theorem error_regular c dims starts steps vals eval x A kappa :
  float_regular Hp He c dims starts steps vals eval ->
  Forall (fun s => fin s) starts -> Forall (fun h => fin h) steps -> Forall (fun v => fin v) x ->
  (forall k start h d, nth_error starts k = Some start -> nth_error steps k = Some h -> nth_error dims k = Some d ->
     Rabs (B2R start) <= kappa * B2R h /\ Rabs (B2R start + B2R h * IZR (d - 1)) <= kappa * B2R h /\
     kappa * B2R h <= bpow radix2 (emax - 3)) ->
  SpecReal.inside_grid (reg_axes dims (map B2R starts) (map B2R steps)) (map B2R x) ->
  0 <= A -> Forall (fun v => fin v /\ Rabs (B2R v) <= A) vals -> A <= bpow radix2 (emax - 4) ->
  504 * INR (length dims) * (u * kappa) <= 1 -> (prec <= 64)%Z ->
  Forall (good_axis 2) (reg_axes dims (map B2R starts) (map B2R steps)) /\
  exists y, eval x = Ok y /\ fin y /\
  Rabs (B2R y - tenL (ops1 lin1 (reg_axes dims (map B2R starts) (map B2R steps)) (map B2R x))
                     (entry 0 (map npts (reg_axes dims (map B2R starts) (map B2R steps))) (map B2R vals)))
   <= INR (length dims) * (64 * (u * kappa) * A + 3 * eta).
Proof.
  intros H Fs Fh Fx Hax In A0 Hv HA HN Hprec.
  destruct (float_regular_inv _ _ _ _ _ _ _ _ _ _ H) as (W & P & fma & E).
  assert (W' := W). destruct W' as (W0 & W1 & W2 & W3 & W4). cbn [r_dims r_starts r_steps r_vals] in *.
  assert (L1 : length (map (@B2R prec emax) starts) = length dims) by (rewrite map_length; auto).
  assert (L2 : length (map (@B2R prec emax) steps) = length dims) by (rewrite map_length; auto).
  assert (La := reg_axes_length _ _ _ L1 L2). assert (Dm := reg_axes_npts _ _ _ L1 L2).
  assert (Lx : length x = length dims) by (rewrite <- La, <- (proj1 In), map_length; auto). rewrite E by auto.
  assert (Good : Forall (good_axis 2) (reg_axes dims (map B2R starts) (map B2R steps))).
  { apply reg_axes_good; auto. rewrite Forall_map. rewrite Forall_forall in *. intros h Hh.
    assert (Q := P h Hh). apply ltb_fin in Q; auto. }
  split; [exact Good|].
  assert (N1 : 1 <= INR (length dims)).
  { change 1 with (INR 1). apply le_INR. lia. }
  assert (U := u_pos).
  set (axes := reg_axes dims (map B2R starts) (map B2R steps)) in *.
  set (st := fun k => nth k starts (fzero o)). set (sp := fun k => nth k steps (fzero o)).
  set (xx := fun k => nth k x (fzero o)). set (dd := fun k => nth k dims 0%Z).
  assert (NA : forall k, (k < length dims)%nat -> nth k axes ax0 = mkAxis (dd k) (fun i => B2R (st k) + B2R (sp k) * IZR i)).
  { intros k Hk. unfold axes. rewrite reg_axes_nth by auto. rewrite !nth_B2R. reflexivity. }
  assert (AX : forall k, (k < length dims)%nat -> fin (st k) /\ fin (sp k) /\ fin (xx k) /\ 0 < B2R (sp k) /\ (2 <= dd k)%Z /\
    Rabs (B2R (st k)) <= kappa * B2R (sp k) /\ Rabs (B2R (st k) + B2R (sp k) * IZR (dd k - 1)) <= kappa * B2R (sp k) /\
    kappa * B2R (sp k) <= bpow radix2 (emax - 3) /\
    B2R (st k) <= B2R (xx k) <= B2R (st k) + B2R (sp k) * IZR (dd k - 1)).
  { intros k Hk.
    assert (F1 : fin (sp k)) by (apply (Forall_nth_lt (fzero o) Fh); lia).
    destruct (Hax k (st k) (sp k) (dd k)) as (H1 & H2 & H3); try (apply nth_error_nth_some; lia).
    split; [apply (Forall_nth_lt (fzero o) Fs); lia|]. split; [auto|]. split; [apply (Forall_nth_lt (fzero o) Fx); lia|].
    split. { assert (Q : flt o (fzero o) (sp k) = true) by (apply (Forall_nth_lt (fzero o) P); lia). apply ltb_fin in Q; auto. }
    split; [apply (Forall_nth_lt 0%Z W3 Hk)|]. split; [auto|]. split; [auto|]. split; [auto|].
    destruct In as (_ & In). assert (R := In k (nth k axes ax0) ltac:(apply nth_error_nth_some; lia)).
    rewrite NA, nth_B2R in R by auto. cbn [coord npts] in R. fold (xx k) in R.
    change (IZR 0) with 0 in R. lra. }
  assert (K0 : 0 <= u * kappa).
  { apply Rmult_le_pos; [lra|]. destruct (AX 0%nat ltac:(lia)) as (F1 & F2 & F3 & P1 & D1 & B1 & B2 & B3 & R).
    apply Rmult_le_reg_r with (B2R (sp 0%nat)); auto. assert (Q := Rabs_pos (B2R (st 0%nat))). lra. }
  assert (HE : 504 * (u * kappa) <= 1) by nra.
  assert (CE : forall k, (k < length dims)%nat -> exists i, reg_cell o (st k) (sp k) (dd k) (xx k) = Ok i /\ (0 <= i <= dd k - 2)%Z /\
    - (6 * (u * kappa)) <= reg_pos (st k) (sp k) (xx k) - IZR i <= 1 + 6 * (u * kappa)).
  { intros k Hk. destruct (AX k Hk) as (F1 & F2 & F3 & P1 & D1 & B1 & B2 & B3 & R). apply cell_ok; auto. }
  assert (U2 : u <= 2 * (u * kappa)).
  { destruct (AX 0%nat ltac:(lia)) as (F1 & F2 & F3 & P1 & D1 & B1 & B2 & B3 & R). eapply (u_small (st 0%nat) (sp 0%nat) (xx 0%nat) (dd 0%nat) kappa); eauto. }
  assert (Hu : u <= / 64).
  { destruct (AX 0%nat ltac:(lia)) as (F1 & F2 & F3 & P1 & D1 & B1 & B2 & B3 & R). eapply (u_small (st 0%nat) (sp 0%nat) (xx 0%nat) (dd 0%nat) kappa); eauto. }
  destruct (mapM_total _ _ (fun k => reg_cell o (st k) (sp k) (dd k) (xx k)) (seq 0 (length dims))) as (os & Eos).
  { intros k Hk. apply in_seq in Hk. destruct (CE k ltac:(lia)) as (i & -> & _). eauto. }
  assert (Eos' : reg_cells o (mkRegular dims starts steps vals) x = Ok os) by exact Eos.
  rewrite Eos'. cbn [bind].
  eexists. split; [reflexivity|].
  assert (CO : forall k, (k < length dims)%nat -> (0 <= nth k os 0 <= dd k - 2)%Z /\
    - (6 * (u * kappa)) <= reg_pos (st k) (sp k) (xx k) - IZR (nth k os 0%Z) <= 1 + 6 * (u * kappa)).
  { intros k Hk. assert (Ek := @mapM_snoc_nth _ 0%Z _ _ _ Eos k Hk). cbv beta in Ek.
    destruct (CE k Hk) as (i & Ei & R). rewrite Ei in Ek. injection Ek as <-. exact R. }
  assert (Lm : length (map B2R x) = length axes) by (rewrite map_length; lia).
  assert (LF := good_lin _ Lm Good). rewrite Dm in *.
  assert (Hnd : forall k, (k < length dims)%nat -> nth k (ops1 lin1 axes (map B2R x)) (fun _ => 0) =
     lin1 (mkAxis (dd k) (fun i => B2R (st k) + B2R (sp k) * IZR i)) (B2R (xx k))).
  { intros k Hk. rewrite ops1_nth by (rewrite ?map_length; lia). rewrite NA by auto. rewrite nth_B2R. reflexivity. }
  destruct (tens_error Hu c dims os (entry (fzero o) dims vals) (ops1 lin1 axes (map B2R x))
     (fun k => reg_dtp o fma (st k) (sp k) (xx k) (nth k os 0%Z)) (fun k => reg_pos (st k) (sp k) (xx k) - IZR (nth k os 0%Z))
     (8 * (u * kappa)) (6 * (u * kappa)) A) with (k := length dims) (suf := @nil Z) as (F & Er).
  - exact (@reg_cells_foot _ o _ x os W Eos').
  - exact LF.
  - apply Forall2_nth_intro with (da := 0%Z) (db := fun _ : Z -> R => 0); [rewrite ops1_length by auto; lia|].
    intros k Hk f m M Hf. rewrite Hnd by auto. destruct (AX k Hk) as (F1 & F2 & F3 & P1 & D1 & B1 & B2 & B3 & R).
    apply lin1_mean; auto.
    + split; [apply reg_axis_inc; auto|exact D1].
    + cbn [coord npts]. change (IZR 0) with 0. lra.
  - intros idx. apply entry_bound; auto.
  - lra.
  - lra.
  - intros k Hk. destruct (AX k Hk) as (F1 & F2 & F3 & P1 & D1 & B1 & B2 & B3 & R). destruct (CO k Hk) as (C1 & C2).
    destruct (reg_position_error (st k) (sp k) (xx k) (dd k) kappa) with (fma := fma) (i := nth k os 0%Z) as (G1 & G2); auto.
  - intros k f M Hk Hf. rewrite Hnd by auto. destruct (AX k Hk) as (F1 & F2 & F3 & P1 & D1 & B1 & B2 & B3 & R). destruct (CO k Hk) as (C1 & C2).
    apply piece_error; auto.
  - assert (INR (length dims) * u <= INR (length dims) * (2 * (u * kappa))) by (apply Rmult_le_compat_l; lra). lra.
  - exact HA.
  - lia.
  - unfold mlr_value. cbn [r_dims r_starts r_steps r_vals].
    split; [exact F|].
    assert (LO : length (ops1 lin1 axes (map B2R x)) = length dims) by (rewrite ops1_length by auto; lia).
    replace (firstn (length dims) (ops1 lin1 axes (map B2R x))) with (ops1 lin1 axes (map B2R x)) in Er by (rewrite <- LO, firstn_all; reflexivity).
    rewrite (tenL_ext _ (fun idx => B2R (entry (fzero o) dims vals (idx ++ []))) LF).
    2:{ intros idx _. rewrite app_nil_r. apply entry_real. }
    eapply Rle_trans; [exact Er|]. apply Rmult_le_compat_l; [lra|].
    nra.
Qed.

End B.
