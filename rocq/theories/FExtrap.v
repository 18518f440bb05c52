(** Rounding errors of multilinear extrapolation over the IEEE instances. *)
From Coq Require Import Reals Lra Lia List Bool ZifyBool ZifyNat PeanoNat.
From Flocq Require Import Core.Core Relative Plus_error IEEE754.BinarySingleNaN.
From Verif Require Import Base Ops FInst ModelCore ModelLinear Spec SpecOrder SpecIEEE.
From Verif Require Import CoreLemmas TensorLemmas MethodLemmas SearchLemmas MethodChar GenLemmas GenProofs OrderLemmas OrderProofs FLemmas UtilProofs FProofs FProofs2 FError.
From Verif Require Import RInst SpecReal RTensor R1D RChar Interpolators REval.
From Verif Require Import SpecApprox Approx1D Approx SpecError SpecExtrap SpecReach Extrap1D Extrap.
Import ListNotations.
Unset Implicit Arguments.
Open Scope list_scope.
Open Scope R_scope.

Lemma prod_upto_snoc n g : prod_upto (S n) g = prod_upto n g * g n.
Proof.
  revert g. induction n as [|n IH]; intros g.
  - unfold prod_upto. simpl. ring.
  - rewrite prod_upto_S, IH, prod_upto_S. ring.
Qed.
Lemma prod_upto_ge1 n g : (forall k, (k < n)%nat -> 1 <= g k) -> 1 <= prod_upto n g.
Proof.
  induction n as [|n IH]; intros H; [unfold prod_upto; simpl; lra|]. rewrite prod_upto_snoc.
  assert (P := IH (fun k Hk => H k ltac:(lia))). assert (Q := H n ltac:(lia)). nra.
Qed.
Lemma prod_upto_mono m n g : (m <= n)%nat -> (forall k, (k < n)%nat -> 1 <= g k) -> prod_upto m g <= prod_upto n g.
Proof.
  intros L. induction L as [|n L IH]; intros H; [lra|]. rewrite prod_upto_snoc.
  assert (P := IH (fun k Hk => H k ltac:(lia))). assert (Q := H n ltac:(lia)).
  assert (P1 := prod_upto_ge1 m g (fun k Hk => H k ltac:(lia))). nra.
Qed.
Lemma prod_upto_ext n g g' : (forall k, (k < n)%nat -> g k = g' k) -> prod_upto n g = prod_upto n g'.
Proof.
  induction n as [|n IH]; intros H; [reflexivity|]. rewrite !prod_upto_snoc, H by lia. f_equal. apply IH. intros. apply H. lia.
Qed.

Section B.
Variables prec emax : Z.
Context (Hp : Prec_gt_0 prec) (He : Prec_lt_emax prec emax).
Notation fl := (binary_float prec emax).
Notation o := (BOps Hp He).
Notation emin := (3 - emax - prec)%Z.
Notation fin x := (is_finite x = true).
Notation rnd := (rnd prec emax).
Notation small v := (@moderate prec emax v).
Notation u := (bpow radix2 (- prec)).
Notation eta := (/ 2 * bpow radix2 emin).
Notation u_pos := (u_pos prec).
Notation eta_pos := (eta_pos prec emax).
Notation rnd_abs := (rnd_abs prec emax Hp).
Notation rnd_rel := (rnd_rel prec emax Hp).
Notation rnd_lt := (rnd_lt prec emax Hp He).
Notation on_grid_sub := (on_grid_sub prec emax).
Notation on_grid_add := (on_grid_add prec emax).
Notation on_grid_fl := (on_grid_fl prec emax).

Section Node.
Hypothesis Hu : u <= / 64.

(** One interpolation step between two floats, at a position that may be outside the cell. *)
Lemma lin_nd_any c (th a b : fl) t tau delta G B : fin th -> fin a -> fin b ->
  0 <= tau -> 0 <= delta -> tau + delta <= / 4 -> 1 <= G -> Rabs (B2R th - t) <= tau * G ->
  Rabs t <= (1 + delta) * G -> Rabs (1 - t) + Rabs t <= (1 + 2 * delta) * G ->
  Rabs (B2R a) <= B -> Rabs (B2R b) <= B -> G * B <= bpow radix2 (emax - 3) ->
  fin (lin_nd o c th [a; b]) /\
  Rabs (B2R (lin_nd o c th [a; b]) - (B2R a + t * (B2R b - B2R a))) <= (8 * u + 2 * tau) * (G * B) + 2 * eta.
Proof using All.
  intros Ft Fa Fb Ht Hd Htd HG Et Rt Rt2 Ba Bb HB.
  assert (U := u_pos). assert (N := eta_pos). destruct (eta_small prec emax Hp He Hu) as (N1 & N2).
  set (U1 := u) in *. set (N0 := eta) in *.
  assert (B0 : 0 <= B) by (eapply Rle_trans; [apply Rabs_pos|exact Ba]).
  assert (X1 : bpow radix2 (emax - 1) = 8 * bpow radix2 (emax - 4)).
  { replace (emax - 1)%Z with (3 + (emax - 4))%Z by lia. rewrite bpow_plus. reflexivity. }
  assert (X3 : bpow radix2 (emax - 3) = 2 * bpow radix2 (emax - 4)).
  { replace (emax - 3)%Z with (1 + (emax - 4))%Z by lia. rewrite bpow_plus. reflexivity. }
  assert (X0 := bpow_gt_0 radix2 (emax - 4)).
  set (X := bpow radix2 (emax - 4)) in *.
  assert (GB1 : B <= G * B) by (assert (1 * B <= G * B) by (apply Rmult_le_compat_r; lra); lra).
  set (C := G * B) in *.
  assert (C0 : 0 <= C) by lra.
  assert (Dab : Rabs (B2R b - B2R a) <= 2 * B).
  { apply Rabs_le_inv in Ba. apply Rabs_le_inv in Bb. apply Rabs_le. lra. }
  assert (Th : Rabs (B2R th) <= 5 / 4 * G).
  { replace (B2R th) with ((B2R th - t) + t) by ring. eapply Rle_trans; [apply abs_add; [exact Et|exact Rt]|].
    replace (tau * G + (1 + delta) * G) with ((1 + (tau + delta)) * G) by ring. apply Rmult_le_compat_r; lra. }
  destruct (sub_ok _ _ Hp He b a Fb Fa) as (Fd & Vd); [apply rnd_lt; lra|].
  assert (Ed := rnd_rel (B2R b - B2R a) ltac:(apply on_grid_sub; apply on_grid_fl)). rewrite <- Vd in Ed. fold U1 in Ed.
  set (d := fsub o b a) in *.
  assert (Ed' : Rabs (B2R d - (B2R b - B2R a)) <= U1 * (2 * B)).
  { eapply Rle_trans; [exact Ed|]. apply Rmult_le_compat_l; lra. }
  assert (UB : 0 <= U1 * C) by (apply Rmult_le_pos; lra).
  assert (UB' : U1 * C <= C / 64) by (assert (U1 * C <= / 64 * C) by (apply Rmult_le_compat_r; lra); lra).
  assert (TB : tau * C <= C / 4) by (assert (tau * C <= / 4 * C) by (apply Rmult_le_compat_r; lra); lra).
  assert (TB0 : 0 <= tau * C) by (apply Rmult_le_pos; lra).
  assert (Bd : Rabs (B2R d) <= 2 * B + 2 * (U1 * B)).
  { apply Rabs_le_inv in Ed'. apply Rabs_le_inv in Dab. apply Rabs_le. lra. }
  assert (Q : Rabs (B2R th * B2R d - t * (B2R b - B2R a)) <= 5 / 2 * (U1 * C) + 2 * (tau * C)).
  { replace (B2R th * B2R d - t * (B2R b - B2R a)) with
      (B2R th * (B2R d - (B2R b - B2R a)) + (B2R th - t) * (B2R b - B2R a)) by ring.
    eapply Rle_trans; [apply abs_add; [apply abs_mul; [exact Th|exact Ed']|apply abs_mul; [exact Et|exact Dab]]|]. 
    unfold C. right. field. }
  assert (Bp : Rabs (B2R th * B2R d) <= 5 / 2 * C + 5 / 2 * (U1 * C)).
  { eapply Rle_trans; [apply abs_mul; [exact Th|exact Bd]|]. unfold C. right. field. }
  assert (L : Rabs (B2R a + t * (B2R b - B2R a)) <= 3 / 2 * C).
  { replace (B2R a + t * (B2R b - B2R a)) with ((1 - t) * B2R a + t * B2R b) by ring.
    eapply Rle_trans; [apply Rabs_triang|]. rewrite !Rabs_mult.
    apply Rle_trans with (Rabs (1 - t) * B + Rabs t * B).
    - apply Rplus_le_compat; apply Rmult_le_compat_l; auto; apply Rabs_pos.
    - rewrite <- Rmult_plus_distr_r. apply Rle_trans with ((1 + 2 * delta) * G * B); [apply Rmult_le_compat_r; auto|].
      rewrite Rmult_assoc. fold C. apply Rmult_le_compat_r; lra. }
  assert (UUB : U1 * (U1 * C) <= U1 * C / 64).
  { assert (U1 * (U1 * C) <= / 64 * (U1 * C)) by (apply Rmult_le_compat_r; lra). lra. }
  unfold lin_nd. fold d. destruct (use_fma c).
  - assert (BS : Rabs (B2R th * B2R d + B2R a) <= 21 / 10 * C).
    { replace (B2R th * B2R d + B2R a) with ((B2R th * B2R d - t * (B2R b - B2R a)) + (B2R a + t * (B2R b - B2R a))) by ring.
      eapply Rle_trans; [apply abs_add; [exact Q|exact L]|]. lra. }
    destruct (fma_ok _ _ Hp He th d a Ft Fd Fa) as (F & V); [apply rnd_lt; lra|].
    split; [exact F|]. rewrite V.
    assert (E := rnd_abs (B2R th * B2R d + B2R a)). fold U1 N0 in E.
    set (s := B2R th * B2R d + B2R a) in *.
    replace (rnd s - (B2R a + t * (B2R b - B2R a))) with ((rnd s - s) + (B2R th * B2R d - t * (B2R b - B2R a))) by (unfold s; ring).
    eapply Rle_trans; [apply abs_add; [exact E|exact Q]|].
    assert (U1 * Rabs s <= U1 * (21 / 10 * C)) by (apply Rmult_le_compat_l; lra). lra.
  - destruct (mul_ok _ _ Hp He th d Ft Fd) as (Fm & Vm); [apply rnd_lt; lra|].
    assert (Em := rnd_abs (B2R th * B2R d)). fold U1 N0 in Em. rewrite <- Vm in Em.
    set (p := fmul o th d) in *.
    assert (Em' : Rabs (B2R p - B2R th * B2R d) <= 26 / 10 * (U1 * C) + N0).
    { eapply Rle_trans; [exact Em|]. assert (U1 * Rabs (B2R th * B2R d) <= U1 * (5 / 2 * C + 5 / 2 * (U1 * C))) by (apply Rmult_le_compat_l; lra). lra. }
    assert (Q' : Rabs (B2R a + B2R p - (B2R a + t * (B2R b - B2R a))) <= (51 / 10 * (U1 * C) + 2 * (tau * C)) + N0).
    { replace (B2R a + B2R p - (B2R a + t * (B2R b - B2R a))) with ((B2R p - B2R th * B2R d) + (B2R th * B2R d - t * (B2R b - B2R a))) by ring.
      eapply Rle_trans; [apply abs_add; [exact Em'|exact Q]|]. lra. }
    assert (BS : Rabs (B2R a + B2R p) <= 21 / 10 * C + N0).
    { replace (B2R a + B2R p) with ((B2R a + B2R p - (B2R a + t * (B2R b - B2R a))) + (B2R a + t * (B2R b - B2R a))) by ring.
      eapply Rle_trans; [apply abs_add; [exact Q'|exact L]|]. lra. }
    destruct (add_ok _ _ Hp He a p Fa Fm) as (F & V); [apply rnd_lt; lra|].
    split; [exact F|]. rewrite V.
    assert (E := rnd_rel (B2R a + B2R p) ltac:(apply on_grid_add; apply on_grid_fl)). fold U1 in E.
    set (s := B2R a + B2R p) in *.
    replace (rnd s - (B2R a + t * (B2R b - B2R a))) with ((rnd s - s) + (s - (B2R a + t * (B2R b - B2R a)))) by ring.
    eapply Rle_trans; [apply abs_add; [exact E|exact Q']|].
    assert (U1 * Rabs s <= U1 * (21 / 10 * C + N0)) by (apply Rmult_le_compat_l; lra).
    assert (U1 * N0 <= N0 * / 64) by (rewrite Rmult_comm; apply Rmult_le_compat_l; lra). lra.
Qed.

(** The position in a cell, of a point that may be outside the cell. *)
Lemma position_any (a b x : fl) G : small a -> small b -> small x -> B2R a < B2R b ->
  let t := (B2R x - B2R a) / (B2R b - B2R a) in let th := fdiv o (fsub o x a) (fsub o b a) in
  1 <= G -> Rabs t <= G -> G <= bpow radix2 (emax - 4) ->
  fin th /\ Rabs (B2R th - t) <= 4 * u * G.
Proof using All.
  intros (Fa & Sa) (Fb & Sb) (Fx & Sx) Hab t th G1 Ht HG. assert (U := u_pos).
  destruct (eta_small prec emax Hp He Hu) as (N1 & _). assert (N := eta_pos).
  assert (X2 : bpow radix2 (emax - 1) = 2 * bpow radix2 (emax - 2)).
  { replace (emax - 1)%Z with (1 + (emax - 2))%Z by lia. rewrite bpow_plus. reflexivity. }
  assert (X4 : bpow radix2 (emax - 1) = 8 * bpow radix2 (emax - 4)).
  { replace (emax - 1)%Z with (3 + (emax - 4))%Z by lia. rewrite bpow_plus. reflexivity. }
  destruct (sub_ok _ _ Hp He x a Fx Fa) as (F1 & V1).
  { apply rnd_lt. apply Rabs_le_inv in Sa. apply Rabs_le_inv in Sx. apply Rabs_le. lra. }
  destruct (sub_ok _ _ Hp He b a Fb Fa) as (F2 & V2).
  { apply rnd_lt. apply Rabs_le_inv in Sa. apply Rabs_le_inv in Sb. apply Rabs_le. lra. }
  assert (E1 := rnd_rel (B2R x - B2R a) ltac:(apply on_grid_sub; apply on_grid_fl)).
  assert (E2 := rnd_rel (B2R b - B2R a) ltac:(apply on_grid_sub; apply on_grid_fl)).
  rewrite <- V1 in E1. rewrite <- V2 in E2.
  set (p1 := B2R (fsub o x a)) in *. set (p2 := B2R (fsub o b a)) in *.
  set (w := B2R b - B2R a) in *. set (v := B2R x - B2R a) in *.
  assert (Pw : 0 < w) by (unfold w; lra). rewrite (Rabs_pos_eq w) in E2 by lra.
  assert (UW : u * w <= / 64 * w) by (apply Rmult_le_compat_r; lra).
  assert (P2 : 63 / 64 * w <= p2) by (apply Rabs_le_inv in E2; lra).
  assert (Vt : Rabs v = Rabs t * w).
  { unfold t. unfold Rdiv. rewrite Rabs_mult, (Rabs_pos_eq (/ w)) by (left; apply Rinv_0_lt_compat; auto). field. lra. }
  assert (T0 := Rabs_pos t).
  assert (E4 : Rabs (p1 / p2 - t) <= 128 / 63 * (u * Rabs t)).
  { unfold t. replace (p1 / p2 - v / w) with (((p1 - v) - v / w * (p2 - w)) / p2) by (field; lra).
    unfold Rdiv at 1. rewrite Rabs_mult, (Rabs_pos_eq (/ p2)) by (left; apply Rinv_0_lt_compat; lra).
    apply Rmult_le_reg_r with p2; [lra|]. rewrite Rmult_assoc, Rinv_l, Rmult_1_r by lra.
    fold t. assert (X : Rabs (t * (p2 - w)) <= Rabs t * (u * w)) by (apply abs_mul; [lra|exact E2]).
    assert (Y : Rabs (p1 - v - t * (p2 - w)) <= u * (Rabs t * w) + Rabs t * (u * w)).
    { unfold Rminus at 1. apply abs_add; [|rewrite Rabs_Ropp; lra]. rewrite <- Vt. exact E1. }
    eapply Rle_trans; [exact Y|].
    assert (0 <= u * Rabs t) by (apply Rmult_le_pos; lra).
    assert (128 / 63 * (u * Rabs t) * (63 / 64 * w) <= 128 / 63 * (u * Rabs t) * p2) by (apply Rmult_le_compat_l; lra). lra. }
  assert (UG : u * Rabs t <= u * G) by (apply Rmult_le_compat_l; lra).
  assert (UG1 : u * G <= / 64 * G) by (apply Rmult_le_compat_r; lra).
  assert (UG2 : u * (u * G) <= / 64 * (u * G)).
  { apply Rmult_le_compat_r; [apply Rmult_le_pos; lra|lra]. }
  assert (UG0 : u * 1 <= u * G) by (apply Rmult_le_compat_l; lra).
  assert (Q : Rabs (p1 / p2) <= G + 128 / 63 * (u * G)).
  { replace (p1 / p2) with (t + (p1 / p2 - t)) by ring. eapply Rle_trans; [apply abs_add; [exact Ht|exact E4]|]. lra. }
  destruct (div_ok _ _ Hp He (fsub o x a) (fsub o b a) F1) as (F & V); [fold p2; lra|fold p1 p2; apply rnd_lt; lra|].
  fold th in F, V. split; [exact F|]. rewrite V. fold p1 p2.
  assert (E3 := rnd_abs (p1 / p2)).
  replace (rnd (p1 / p2) - t) with ((rnd (p1 / p2) - p1 / p2) + (p1 / p2 - t)) by ring.
  eapply Rle_trans; [apply abs_add; [exact E3|exact E4]|].
  assert (u * Rabs (p1 / p2) <= u * (G + 128 / 63 * (u * G))) by (apply Rmult_le_compat_l; lra). lra.
Qed.

(** ** Any number of axes *)
Section Tens.
Variables (c : cfg) (dims os : list Z) (Vh : list Z -> fl) (Ls : list ((Z -> R) -> R)).
Variables (th : nat -> fl) (t G : nat -> R) (tau delta A : R).
Notation gamma := (8 * u + 2 * tau + 4 * delta).
Notation N := (length dims).
Notation V := (fun idx => B2R (Vh idx)).
Notation P := (fun k => prod_upto k G).
Hypothesis Hos : foot_in 2 dims os.
Hypothesis HLs : lfs dims Ls.
Hypothesis HG : forall k, (k < N)%nat -> 1 <= G k.
Hypothesis Hnorm : forall k f M, (k < N)%nat -> (forall i, (0 <= i < nth k dims 0)%Z -> Rabs (f i) <= M) ->
  Rabs (nth k Ls (fun _ => 0) f) <= G k * M.
Hypothesis HV : forall idx, fin (Vh idx) /\ Rabs (V idx) <= A.
Hypothesis Htau : 0 <= tau.
Hypothesis Hdelta : 0 <= delta.
Hypothesis Hth : forall k, (k < N)%nat -> fin (th k) /\ Rabs (B2R (th k) - t k) <= tau * G k /\
  Rabs (t k) <= (1 + delta) * G k /\ Rabs (1 - t k) + Rabs (t k) <= (1 + 2 * delta) * G k.
Hypothesis Hpiece : forall k f M, (k < N)%nat -> (forall i, (0 <= i < nth k dims 0)%Z -> Rabs (f i) <= M) ->
  Rabs ((f (nth k os 0%Z) + t k * (f (nth k os 0 + 1)%Z - f (nth k os 0%Z))) - nth k Ls (fun _ => 0) f) <= 4 * delta * (G k * M).
Hypothesis Hgamma : 9 * INR N * gamma <= 1.
Hypothesis HP : P N <= bpow radix2 (emax - 4).
Hypothesis HA : P N * A <= bpow radix2 (emax - 4).

Lemma A_pos_any : 0 <= A.
Proof using HV. destruct (HV []) as (_ & H). eapply Rle_trans; [apply Rabs_pos|exact H]. Qed.
Lemma Ls_len : length Ls = N.
Proof using HLs. symmetry. apply (Forall2_len _ _ _ _ _ HLs). Qed.
Lemma firstn_last k : (S k <= N)%nat -> firstn (S k) Ls = firstn k Ls ++ [nth k Ls (fun _ => 0)].
Proof using HLs.
  intros Hk. assert (LL := Ls_len). rewrite <- LL in Hk. clear LL. revert k Hk.
  clear. induction Ls as [|L Ls' IH]; intros k Hk; simpl in *; [lia|].
  destruct k; auto. simpl. f_equal. apply IH. lia.
Qed.

(** The exact values of the first k axes. *)
Lemma part_bound k : (k <= N)%nat -> forall suf, Rabs (tenL (firstn k Ls) (fun idx => V (idx ++ suf))) <= P k * A.
Proof using All.
  induction k as [|k IH]; intros Hk suf.
  - unfold prod_upto. cbn [firstn tenL seq map fold_right]. rewrite Rmult_1_l. apply HV.
  - assert (HLk : lfs (firstn k dims) (firstn k Ls)) by (apply Forall2_firstn; exact HLs).
    assert (HL : lf (nth k dims 0%Z) (nth k Ls (fun _ => 0))) by (apply (Forall2_nth_lt _ _ _ _ _ k 0%Z (fun _ => 0) HLs); lia).
    rewrite firstn_last by auto. rewrite (tenL_snoc _ HLk HL). rewrite prod_upto_snoc.
    replace (prod_upto k G * G k * A) with (G k * (prod_upto k G * A)) by ring.
    apply Hnorm; [lia|]. intros i _.
    rewrite (tenL_ext _ (fun idx => V (idx ++ i :: suf)) HLk) by (intros idx _; rewrite <- app_assoc; reflexivity).
    apply IH. lia.
Qed.

Lemma tens_any k suf : (k <= N)%nat ->
  fin (tens 2 Vh (fun j => lin_nd o c (th j)) os k suf) /\
  Rabs (B2R (tens 2 Vh (fun j => lin_nd o c (th j)) os k suf)
        - tenL (firstn k Ls) (fun idx => V (idx ++ suf))) <= P k * (INR k * (9 / 8 * gamma * A + 3 * eta)).
Proof using All.
  assert (U := u_pos). assert (Eta := eta_pos). destruct (eta_small prec emax Hp He Hu) as (N1 & N2). assert (A0 := A_pos_any).
  assert (G0 : 0 < gamma) by lra.
  revert suf. induction k as [|k IH]; intros suf Hk.
  { split; [apply HV|]. cbn [tens firstn tenL app]. rewrite Rminus_diag_eq by reflexivity. rewrite Rabs_R0.
    unfold prod_upto. simpl. lra. }
  assert (HLk : lfs (firstn k dims) (firstn k Ls)).
  { apply Forall2_firstn. exact HLs. }
  assert (HL : lf (nth k dims 0%Z) (nth k Ls (fun _ => 0))) by (apply (Forall2_nth_lt _ _ _ _ _ k 0%Z (fun _ => 0) HLs); lia).
  rewrite firstn_last by auto. rewrite (tenL_snoc _ HLk HL). cbn [tens seq map].
  set (z := nth k os 0%Z).
  change (Z.of_nat 0) with 0%Z. change (Z.of_nat 1) with 1%Z. rewrite Z.add_0_r.
  set (g := fun i => tenL (firstn k Ls) (fun idx => B2R (Vh ((idx ++ [i]) ++ suf)))).
  change (nth k Ls (fun _ => 0) (fun i => tenL (firstn k Ls) (fun idx => B2R (Vh ((idx ++ [i]) ++ suf))))) with (nth k Ls (fun _ => 0) g).
  assert (Eg : forall i, g i = tenL (firstn k Ls) (fun idx => V (idx ++ i :: suf))).
  { intros i. unfold g. apply (tenL_ext _ _ HLk). intros idx _. rewrite <- app_assoc. reflexivity. }
  assert (Bg : forall i, Rabs (g i) <= P k * A).
  { intros i. rewrite Eg. apply part_bound. lia. }
  destruct (IH (z :: suf) ltac:(lia)) as (F0 & E0). destruct (IH ((z + 1)%Z :: suf) ltac:(lia)) as (F1 & E1).
  rewrite <- Eg in E0, E1.
  set (f0 := tens 2 Vh _ os k (z :: suf)) in *. set (f1 := tens 2 Vh _ os k ((z + 1)%Z :: suf)) in *.
  set (K := INR k * (9 / 8 * gamma * A + 3 * eta)) in *.
  assert (P1 : 1 <= P k) by (apply prod_upto_ge1; intros; apply HG; lia).
  assert (PS : P (S k) = P k * G k) by apply prod_upto_snoc.
  assert (PN : P (S k) <= P N) by (apply prod_upto_mono; auto).
  assert (PS1 : 1 <= P (S k)) by (apply prod_upto_ge1; intros; apply HG; lia).
  cbv beta in P1, PS, PN, PS1. set (p := prod_upto k G) in *. set (q := prod_upto (S k) G) in *.
  (* size of the error so far *)
  assert (Kk : INR k + 1 <= INR N) by (rewrite <- S_INR; apply le_INR; lia).
  assert (K0 : 0 <= INR k) by apply pos_INR.
  assert (Kg : 9 * INR k * gamma <= 1) by nra.
  assert (GA0 : 0 <= gamma * A) by (apply Rmult_le_pos; lra).
  assert (GA : gamma * K <= gamma * A / 8 + eta).
  { unfold K. replace (gamma * (INR k * (9 / 8 * gamma * A + 3 * eta))) with
      ((9 * INR k * gamma) * (gamma * A / 8) + (9 * INR k * gamma) * (eta / 3)) by field.
    assert (9 * INR k * gamma * (gamma * A / 8) <= 1 * (gamma * A / 8)) by (apply Rmult_le_compat_r; lra).
    assert (9 * INR k * gamma * (eta / 3) <= 1 * (eta / 3)) by (apply Rmult_le_compat_r; lra). lra. }
  assert (K00 : 0 <= K).
  { unfold K. apply Rmult_le_pos; lra. }
  assert (Xp := bpow_gt_0 radix2 (emax - 4)).
  assert (KB : q * K <= bpow radix2 (emax - 4)).
  { unfold K. replace (q * (INR k * (9 / 8 * gamma * A + 3 * eta))) with ((9 * INR k * gamma) * (q * A / 8) + (3 * INR k * eta) * q) by field.
    assert (qA : q * A <= bpow radix2 (emax - 4)) by (eapply Rle_trans; [apply Rmult_le_compat_r; [exact A0|exact PN]|exact HA]).
    assert (qA0 : 0 <= q * A) by (apply Rmult_le_pos; lra).
    assert (9 * INR k * gamma * (q * A / 8) <= 1 * (q * A / 8)) by (apply Rmult_le_compat_r; lra).
    assert (Ku : 72 * INR k * u <= 1) by nra.
    assert (EE : bpow radix2 emin = u * bpow radix2 (3 - emax)) by (rewrite <- bpow_plus; f_equal; lia).
    assert (Sm : 3 * INR k * eta <= / 48).
    { assert (bpow radix2 (3 - emax) <= 1).
      { change 1 with (bpow radix2 0). apply bpow_le. assert (P6 := prec_6 prec emax Hp He Hu). unfold Prec_lt_emax in He. lia. }
      assert (Y := bpow_gt_0 radix2 (3 - emax)).
      rewrite EE. replace (3 * INR k * (/ 2 * (u * bpow radix2 (3 - emax)))) with ((72 * INR k * u) * (bpow radix2 (3 - emax) / 48)) by field.
      assert (72 * INR k * u * (bpow radix2 (3 - emax) / 48) <= 1 * (bpow radix2 (3 - emax) / 48)) by (apply Rmult_le_compat_r; lra). lra. }
    assert (3 * INR k * eta * q <= / 48 * q) by (apply Rmult_le_compat_r; lra). lra. }
  assert (X3 : bpow radix2 (emax - 3) = 2 * bpow radix2 (emax - 4)).
  { replace (emax - 3)%Z with (1 + (emax - 4))%Z by lia. rewrite bpow_plus. reflexivity. }
  assert (B0 : Rabs (B2R f0) <= p * (A + K)).
  { specialize (Bg z). replace (B2R f0) with (g z + (B2R f0 - g z)) by ring. rewrite Rmult_plus_distr_l. apply abs_add; auto. }
  assert (B1 : Rabs (B2R f1) <= p * (A + K)).
  { specialize (Bg (z + 1)%Z). replace (B2R f1) with (g (z + 1)%Z + (B2R f1 - g (z + 1)%Z)) by ring. rewrite Rmult_plus_distr_l. apply abs_add; auto. }
  destruct (Hth k ltac:(lia)) as (Ft & Et & Rt & Rt2).
  assert (TD : tau + delta <= / 4).
  { assert (1 <= INR N) by lra. nra. }
  assert (Gk := HG k ltac:(lia)).
  assert (EQ : G k * (p * (A + K)) = q * (A + K)) by (rewrite PS; ring).
  assert (OV : G k * (p * (A + K)) <= bpow radix2 (emax - 3)).
  { rewrite EQ, X3. assert (q * A <= bpow radix2 (emax - 4)) by (eapply Rle_trans; [apply Rmult_le_compat_r; [exact A0|exact PN]|exact HA]). lra. }
  destruct (lin_nd_any c (th k) f0 f1 (t k) tau delta (G k) (p * (A + K)) Ft F0 F1 Htau Hdelta TD Gk Et Rt Rt2 B0 B1 OV) as (F & Er).
  split; [exact F|]. rewrite EQ in Er.
  assert (Pc := Hpiece k g (p * A) ltac:(lia) (fun i _ => Bg i)). fold z in Pc.
  replace (G k * (p * A)) with (q * A) in Pc by (rewrite PS; ring).
  set (r := B2R (lin_nd o c (th k) [f0; f1])) in *.
  assert (D : Rabs ((B2R f0 + t k * (B2R f1 - B2R f0)) - (g z + t k * (g (z + 1)%Z - g z))) <= (1 + 2 * delta) * (q * K)).
  { replace (_ - _) with ((1 - t k) * (B2R f0 - g z) + t k * (B2R f1 - g (z + 1)%Z)) by ring.
    eapply Rle_trans; [apply Rabs_triang|]. rewrite !Rabs_mult.
    apply Rle_trans with (Rabs (1 - t k) * (p * K) + Rabs (t k) * (p * K)).
    - apply Rplus_le_compat; apply Rmult_le_compat_l; auto; apply Rabs_pos.
    - rewrite <- Rmult_plus_distr_r. replace ((1 + 2 * delta) * (q * K)) with ((1 + 2 * delta) * G k * (p * K)) by (rewrite PS; ring).
      apply Rmult_le_compat_r; auto. apply Rmult_le_pos; lra. }
  replace (r - nth k Ls (fun _ => 0) g) with
    ((r - (B2R f0 + t k * (B2R f1 - B2R f0))) + (((B2R f0 + t k * (B2R f1 - B2R f0)) - (g z + t k * (g (z + 1)%Z - g z)))
      + ((g z + t k * (g (z + 1)%Z - g z)) - nth k Ls (fun _ => 0) g))) by ring.
  eapply Rle_trans; [apply abs_add; [exact Er|apply abs_add; [exact D|exact Pc]]|].
  rewrite S_INR. replace ((INR k + 1) * (9 / 8 * gamma * A + 3 * eta)) with (K + (9 / 8 * gamma * A + 3 * eta)) by (unfold K; ring).
  assert (0 <= delta * K) by (apply Rmult_le_pos; lra).
  assert (0 <= delta * A) by (apply Rmult_le_pos; lra).
  apply Rle_trans with (q * ((8 * u + 2 * tau) * (A + K) + (1 + 2 * delta) * K + 4 * delta * A + 2 * eta)).
  - assert (2 * eta <= q * (2 * eta)) by (assert (1 * (2 * eta) <= q * (2 * eta)) by (apply Rmult_le_compat_r; lra); lra). lra.
  - apply Rmult_le_compat_l; lra.
Qed.
End Tens.
End Node.

(** The position of a point in its cell, in terms of its distance to the grid. *)
Lemma local_any a x i : increasing_axis a -> (2 <= npts a)%Z -> in_cell a x i ->
  let t := local_coord a x i in
  Rabs t <= 1 + 2 * overshoot a x /\ Rabs (1 - t) + Rabs t <= 1 + 2 * overshoot a x.
Proof.
  intros Ha Hn (Hi & C1 & C2) t.
  assert (W : 0 < coord a (i + 1) - coord a i).
  { assert (coord a i < coord a (i + 1)) by (apply Ha; lia). lra. }
  assert (D0 := overshoot_nonneg a x).
  assert (K : Rabs (1 - t) + Rabs t <= 1 + 2 * overshoot a x).
  { destruct (Rlt_le_dec t 0) as [L|L]; [|destruct (Rlt_le_dec 1 t) as [L'|L']].
    - assert (i = 0)%Z.
      { destruct C1 as [C1|C1]; auto. exfalso. apply (Rlt_not_le _ _ L). unfold t, local_coord.
        apply Rmult_le_pos; [lra|left; apply Rinv_0_lt_compat; auto]. }
      subst i. assert (Q : - t <= overshoot a x).
      { unfold overshoot. eapply Rle_trans; [|apply Rmax_r]. eapply Rle_trans; [|apply Rmax_l].
        unfold t, local_coord, spacing. right. field. lra. }
      rewrite (Rabs_pos_eq (1 - t)), (Rabs_left t) by lra. lra.
    - assert (i = npts a - 2)%Z.
      { destruct C2 as [C2|C2]; auto. exfalso. apply (Rlt_not_le _ _ L'). unfold t, local_coord.
        apply Rmult_le_reg_r with (coord a (i + 1) - coord a i); auto. unfold Rdiv. rewrite Rmult_assoc, Rinv_l by lra. lra. }
      subst i. assert (Q : t - 1 <= overshoot a x).
      { unfold overshoot. eapply Rle_trans; [|apply Rmax_r]. eapply Rle_trans; [|apply Rmax_r].
        unfold t, local_coord, spacing. replace (npts a - 2 + 1)%Z with (npts a - 1)%Z in * by lia. right. field. lra. }
      rewrite (Rabs_left (1 - t)), (Rabs_pos_eq t) by lra. lra.
    - rewrite (Rabs_pos_eq (1 - t)), (Rabs_pos_eq t) by lra. lra. }
  split; [|exact K]. assert (Q := Rabs_pos (1 - t)). lra.
Qed.

Lemma gain_nth axes x k a : nth_error axes k = Some a -> 1 <= 1 + 2 * outside_by axes x k.
Proof. intros E. rewrite (outside_nth _ _ _ _ E). assert (Q := overshoot_nonneg a (nth k x 0)). lra. Qed.

Lemma gain_le_factor axes x k : (k < length axes)%nat -> 1 + 2 * outside_by axes x k <= reach_factor axes x.
Proof.
  intros Hk. unfold reach_factor.
  assert (G : forall j, (j < length axes)%nat -> 1 <= 1 + 2 * outside_by axes x j).
  { intros j Hj. apply (gain_nth axes x j (nth j axes no_axis)). apply nth_error_nth_some; auto. }
  eapply Rle_trans; [|apply (prod_upto_mono (S k)); [lia|exact G]]. rewrite prod_upto_snoc.
  assert (Q := prod_upto_ge1 k (fun j => 1 + 2 * outside_by axes x j) (fun j Hj => G j ltac:(lia))).
  assert (Q' := G k Hk). cbv beta.
  assert (1 * (1 + 2 * outside_by axes x k) <= prod_upto k (fun j => 1 + 2 * outside_by axes x j) * (1 + 2 * outside_by axes x k)) by (apply Rmult_le_compat_r; lra). lra.
Qed.

(** ** Rectilinear grids *)
Lemma rect_in_cell (g : list fl) x : increasing_grid o g -> (2 <= zlen g)%Z -> Forall (@moderate prec emax) g -> fin x ->
  in_cell (list_axis (map B2R g)) (B2R x) (rect_cell o g x).
Proof.
  intros I D S Fx. destruct (rect_cell_bracket _ _ Hp He g x I D) as (R1 & R2 & R3).
  set (z := rect_cell o g x) in *. unfold zlen in D, R1, R3.
  assert (Fg : forall n, (n < length g)%nat -> fin (nth n g (fzero o))) by (intros n Hn; apply (proj1 (Forall_nth_lt (fzero o) S Hn))).
  split; [cbn [list_axis npts]; rewrite zlen_map; unfold zlen; lia|]. cbn [list_axis coord npts]. rewrite zlen_map, !(nth_B2R _ _ Hp He). unfold zlen. split.
  - destruct (Z.eq_dec z 0) as [C|C]; [left; auto|right].
    assert (Q := R2 (nth (Z.to_nat z) g (fzero o)) ltac:(lia) ltac:(apply nth_error_nth_some; lia)).
    apply ltb_fin in Q; auto; [lra|apply Fg; lia].
  - destruct (Z.eq_dec z (Z.of_nat (length g) - 2)) as [C|C]; [left; auto|right].
    assert (Q := R3 (nth (Z.to_nat (z + 1)) g (fzero o)) ltac:(lia) ltac:(apply nth_error_nth_some; lia)).
    destruct (Rle_lt_dec (B2R x) (B2R (nth (Z.to_nat (z + 1)) g (fzero o)))) as [L|L]; auto.
    apply (@ltb_fin _ _ Hp He) in L; auto; [|apply Fg; lia]. rewrite L in Q. discriminate Q.
Qed.

Theorem reach_rectilinear c grids vals eval x A :
  float_rectilinear Hp He c grids vals eval ->
  Forall (increasing_grid o) grids -> Forall (Forall (@moderate prec emax)) grids ->
  Forall (@moderate prec emax) x -> length x = length grids ->
  0 <= A -> Forall (fun v => fin v /\ Rabs (B2R v) <= A) vals ->
  reach_fits emax (rect_axes (map (map B2R) grids)) (map B2R x) A ->
  144 * INR (length grids) * u <= 1 ->
  Forall (good_axis 2) (rect_axes (map (map (@B2R prec emax)) grids)) /\
  exists y, eval x = Ok y /\ fin y /\
  Rabs (B2R y - tenL (ops1 lin1 (rect_axes (map (map B2R) grids)) (map B2R x))
                     (entry 0 (map npts (rect_axes (map (map (@B2R prec emax)) grids))) (map B2R vals)))
   <= reach_factor (rect_axes (map (map B2R) grids)) (map B2R x) * rectilinear_reach_error prec emax (length grids) A.
Proof.
  intros H I S Sx Lx A0 Hv (HP & HA) HN.
  destruct (float_rectilinear_inv _ _ _ _ _ _ _ _ H) as (W & E).
  assert (W' := W). destruct W' as (W0 & _ & W2 & W3). cbn [g_grids g_dims g_vals] in *.
  assert (La : length (rect_axes (map (map (@B2R prec emax)) grids)) = length grids) by (unfold rect_axes; rewrite !map_length; auto).
  rewrite E by auto.
  assert (Good : Forall (good_axis 2) (rect_axes (map (map (@B2R prec emax)) grids))).
  { apply rect_axes_good; unfold grids_ok; rewrite Forall_map.
    - rewrite Forall_forall in *. intros g Hg. apply (increasing_B2R _ _ Hp He); auto.
      eapply Forall_impl; [|exact (S g Hg)]. intros v (Fv & _). exact Fv.
    - eapply Forall_impl; [|exact W2]. intros g Hg. rewrite zlen_map. exact Hg. }
  split; [exact Good|].
  eexists. split; [reflexivity|].
  assert (U := u_pos).
  assert (N1 : 1 <= INR (length grids)).
  { change 1 with (INR 1). apply le_INR. lia. }
  assert (Hu : u <= / 64) by nra.
  assert (Dm : map npts (rect_axes (map (map (@B2R prec emax)) grids)) = map zlen grids).
  { rewrite rect_axes_npts, map_map. apply map_ext. intros g. apply zlen_map. }
  assert (Lm : length (map B2R x) = length (rect_axes (map (map (@B2R prec emax)) grids))) by (rewrite map_length; lia).
  assert (LF := good_lin _ Lm Good). rewrite Dm in *.
  assert (LD : length (map zlen grids) = length grids) by apply map_length.
  set (axes := rect_axes (map (map (@B2R prec emax)) grids)) in *.
  assert (NA : forall k, (k < length grids)%nat -> nth k axes ax0 = list_axis (map B2R (nth k grids []))).
  { intros k Hk. unfold axes. rewrite rect_axes_nth by (rewrite map_length; auto).
    rewrite (nth_indep (map (map (@B2R prec emax)) grids) [] (map (@B2R prec emax) [])) by (rewrite map_length; auto). rewrite (map_nth (map (@B2R prec emax))). reflexivity. }
  assert (NE : forall k, (k < length grids)%nat -> nth_error axes k = Some (list_axis (map B2R (nth k grids [])))).
  { intros k Hk. rewrite <- NA by auto. apply nth_error_nth_some. lia. }
  assert (D2 : forall k, (k < length grids)%nat -> (2 <= zlen (nth k grids []))%Z) by (intros; apply (Forall_nth_lt [] W2); auto).
  set (G := fun k => 1 + 2 * outside_by axes (map B2R x) k).
  assert (GE : forall k, (k < length grids)%nat -> G k = 1 + 2 * overshoot (list_axis (map B2R (nth k grids []))) (B2R (nth k x (fzero o)))).
  { intros k Hk. unfold G. rewrite (outside_nth _ _ _ _ (NE k Hk)), (nth_B2R _ _ Hp He). reflexivity. }
  assert (G1 : forall k, (k < length grids)%nat -> 1 <= G k) by (intros k Hk; exact (gain_nth _ _ _ _ (NE k Hk))).
  assert (GP : forall k, (k < length grids)%nat -> G k <= bpow radix2 (emax - 4)).
  { intros k Hk. eapply Rle_trans; [apply gain_le_factor; lia|exact HP]. }
  assert (Good' : forall k, (k < length grids)%nat -> good_axis 2 (list_axis (map B2R (nth k grids [])))).
  { intros k Hk. rewrite <- NA by auto. apply (Forall_nth_lt ax0 Good). lia. }
  assert (Cell : forall k, (k < length grids)%nat ->
    in_cell (list_axis (map B2R (nth k grids []))) (B2R (nth k x (fzero o))) (rect_cell o (nth k grids []) (nth k x (fzero o)))).
  { intros k Hk. assert (Sk := Forall_nth_lt [] S Hk : Forall (@moderate prec emax) (nth k grids [])).
    apply rect_in_cell; [exact (Forall_nth_lt [] I Hk)|auto|exact Sk|apply (Forall_nth_lt (fzero o) Sx); lia]. }
  assert (Hnd : forall k, (k < length grids)%nat -> nth k (ops1 lin1 axes (map B2R x)) (fun _ => 0) = lin1 (list_axis (map B2R (nth k grids []))) (B2R (nth k x (fzero o)))).
  { intros k Hk. rewrite ops1_nth by (rewrite ?map_length; lia). rewrite NA by auto. rewrite (nth_B2R _ _ Hp He). reflexivity. }
  set (os := rect_cells o (mkRect grids (map zlen grids) vals) x).
  set (th := fun k => rect_dtp o (nth k grids []) (nth k x (fzero o)) (rect_cell o (nth k grids []) (nth k x (fzero o)))).
  set (t := fun k => local_coord (list_axis (map B2R (nth k grids []))) (B2R (nth k x (fzero o))) (rect_cell o (nth k grids []) (nth k x (fzero o)))).
  destruct (tens_any Hu c (map zlen grids) os (entry (fzero o) (map zlen grids) vals) (ops1 lin1 axes (map B2R x)) th t G (4 * u) 0 A) with (k := length (map (@zlen fl) grids)) (suf := @nil Z) as (F & Er).
  - exact (@rect_cells_foot _ o _ x W).
  - exact LF.
  - rewrite LD. exact G1.
  - intros k f M Hk Hf. rewrite LD in Hk. rewrite Hnd, GE by auto. destruct (Good' k Hk) as (Ia & Na).
    apply (lin1_norm_any _ Ia Na). intros i Hi. apply Hf. cbn [list_axis npts] in Hi. rewrite zlen_map in Hi.
    rewrite (nth_indep _ 0%Z (zlen (@nil fl))) by (rewrite map_length; auto). rewrite map_nth. exact Hi.
  - intros idx. apply (entry_bound _ _ Hp He); auto.
  - lra.
  - lra.
  - intros k Hk. rewrite LD in Hk. destruct (Good' k Hk) as (Ia & Na).
    destruct (local_any _ _ _ Ia Na (Cell k Hk)) as (T1 & T2). rewrite <- GE in T1, T2 by auto. fold (t k) in T1, T2.
    assert (Rz := @rect_cell_range fl o (nth k grids []) (nth k x (fzero o)) (D2 k Hk)). assert (D := D2 k Hk).
    assert (Sk := Forall_nth_lt [] S Hk : Forall (@moderate prec emax) (nth k grids [])).
    set (g := nth k grids []) in *. set (z := rect_cell o g (nth k x (fzero o))) in *.
    assert (Ca : forall i, coord (list_axis (map B2R g)) i = B2R (gz o g i)).
    { intros i. unfold list_axis, gz. cbn [coord]. rewrite (nth_B2R _ _ Hp He). reflexivity. }
    assert (Lt : B2R (gz o g z) < B2R (gz o g (z + 1))).
    { rewrite <- !Ca. apply Ia; cbn [list_axis npts]; rewrite ?zlen_map; lia. }
    unfold zlen in D, Rz.
    destruct (position_any Hu (gz o g z) (gz o g (z + 1)) (nth k x (fzero o)) (G k)) as (F & Er).
    { apply (Forall_nth_lt (fzero o) Sk). lia. }
    { apply (Forall_nth_lt (fzero o) Sk). lia. }
    { apply (Forall_nth_lt (fzero o) Sx). lia. }
    { exact Lt. }
    { auto. }
    { unfold t, local_coord in T1. fold g in T1. fold z in T1. rewrite !Ca in T1. exact T1. }
    { auto. }
    unfold th, rect_dtp. fold g. fold z. split; [exact F|]. split.
    { unfold t, local_coord. fold g. fold z. rewrite !Ca. exact Er. }
    split; lra.
  - intros k f M Hk Hf. rewrite LD in Hk. rewrite Hnd by auto. unfold os. rewrite rect_cells_nth by auto. cbn [g_grids].
    destruct (Good' k Hk) as (Ia & Na).
    rewrite (@lin1_weights _ Ia Na _ f _ (Cell k Hk)). fold (t k).
    rewrite Rminus_diag_eq by ring. rewrite Rabs_R0. lra.
  - rewrite LD. lra.
  - rewrite LD. unfold reach_factor in HP. rewrite La in HP. exact HP.
  - rewrite LD. unfold reach_factor in HA. rewrite La in HA. exact HA.
  - lia.
  - rewrite LD in Er, F. unfold mlc_value. cbn [g_grids g_dims g_vals]. fold os.
    split; [exact F|].
    assert (LO : length (ops1 lin1 axes (map B2R x)) = length grids) by (rewrite ops1_length by auto; lia).
    replace (firstn (length grids) (ops1 lin1 axes (map B2R x))) with (ops1 lin1 axes (map B2R x)) in Er by (rewrite <- LO, firstn_all; reflexivity).
    rewrite (tenL_ext _ (fun idx => B2R (entry (fzero o) (map zlen grids) vals (idx ++ []))) LF).
    2:{ intros idx _. rewrite app_nil_r. apply (entry_real _ _ Hp He). }
    eapply Rle_trans; [exact Er|]. unfold reach_factor. rewrite La. fold G. right. f_equal.
    unfold rectilinear_reach_error, roundoff, underflow. field.
Qed.
(** ** Regular grids *)
Section Axis.
Variables (start h x : fl) (d : Z) (kappa : R).
Notation s := (B2R start).
Notation w := (B2R h).
Notation X := (B2R x).
Notation E := (u * kappa).
Hypothesis Fs : fin start.
Hypothesis Fh : fin h.
Hypothesis Fx : fin x.
Hypothesis Ph : 0 < w.
Hypothesis Hd : (2 <= d)%Z.
Hypothesis Hs : Rabs s <= kappa * w.
Hypothesis Ht : Rabs (s + w * IZR (d - 1)) <= kappa * w.
Hypothesis Hk : kappa * w <= bpow radix2 (emax - 3).
Hypothesis HE : 504 * E <= 1.
Hypothesis Hx : Rabs X <= kappa * w.
Hypothesis Hprec : (prec <= 64)%Z.
Notation a := (mkAxis d (fun i => s + w * IZR i)).
Notation T := (reg_pos prec emax start h x).

Lemma start_inside : s <= s <= s + w * IZR (d - 1).
Proof using All.
  assert (0 <= IZR (d - 1)) by (apply IZR_le; lia). assert (0 <= w * IZR (d - 1)) by (apply Rmult_le_pos; lra). lra.
Qed.
Lemma kappa_half_any : / 2 <= kappa /\ IZR (d - 1) <= 2 * kappa.
Proof using All. exact (kappa_half prec emax Hp He start h start d kappa Fs Fh Fs Ph Hd Hs Ht Hk HE start_inside Hprec). Qed.
Lemma u_small_any : u <= 2 * E /\ u <= / 64.
Proof using All. exact (u_small prec emax Hp He start h start d kappa Fs Fh Fs Ph Hd Hs Ht Hk HE start_inside Hprec). Qed.
Lemma size_bound_any : 252 * (2 * kappa) <= bpow radix2 prec.
Proof using All. exact (size_bound prec emax Hp He start h start d kappa Fs Fh Fs Ph Hd Hs Ht Hk HE start_inside Hprec). Qed.
Lemma T_any : X = s + w * T.
Proof using All. unfold reg_pos. field. lra. Qed.
Lemma T_size : Rabs T <= 2 * kappa.
Proof using All.
  assert (Q := T_any). apply Rmult_le_reg_l with w; auto. rewrite <- (Rabs_pos_eq w) at 1 by lra. rewrite <- Rabs_mult.
  replace (w * T) with (X - s) by lra. apply Rabs_le_inv in Hs. apply Rabs_le_inv in Hx. apply Rabs_le. lra.
Qed.

Lemma cell_error_any : exists q : fl, q = fdiv o (fsub o x start) h /\ fin q /\ Rabs (B2R q - T) <= 6 * E /\
  to_isize o (ffloor o q) = Some (Zfloor (B2R q)).
Proof using All.
  destruct kappa_half_any as (K1 & K2). destruct u_small_any as (U2 & U64). assert (TS := T_size). assert (T0 := Rabs_pos T).
  assert (U := u_pos). destruct (eta_small prec emax Hp He U64) as (N1 & _). assert (N := eta_pos). assert (SB := size_bound_any).
  assert (XS : Rabs (X - s) <= 2 * (kappa * w)).
  { apply Rabs_le_inv in Hs. apply Rabs_le_inv in Hx. apply Rabs_le. lra. }
  assert (B2 : bpow radix2 (emax - 1) = 4 * bpow radix2 (emax - 3)).
  { replace (emax - 1)%Z with (2 + (emax - 3))%Z by lia. rewrite bpow_plus. reflexivity. }
  assert (B0 := bpow_gt_0 radix2 (emax - 3)).
  destruct (sub_ok _ _ Hp He x start Fx Fs) as (F1 & V1); [apply rnd_lt; lra|].
  assert (E1 := rnd_rel (X - s) ltac:(apply on_grid_sub; apply on_grid_fl)). rewrite <- V1 in E1.
  assert (E2 := rnd_div_error prec (X - s) w Ph _ E1). fold (reg_pos prec emax start h x) in E2.
  set (p := fsub o x start) in *.
  assert (UT : u * Rabs T <= 2 * E).
  { replace (2 * E) with (u * (2 * kappa)) by ring. apply Rmult_le_compat_l; lra. }
  assert (UT0 : 0 <= u * Rabs T) by (apply Rmult_le_pos; lra).
  assert (A2 : Rabs (B2R p / w) <= Rabs T + u * Rabs T).
  { replace (B2R p / w) with (T + (B2R p / w - T)) by ring. apply abs_add; [apply Rle_refl|exact E2]. }
  assert (Small : Rabs T + u * Rabs T <= bpow radix2 (emax - 1)).
  { apply Rle_trans with (bpow radix2 prec).
    - assert (u * Rabs T <= 1 * Rabs T) by (apply Rmult_le_compat_r; lra). lra.
    - apply bpow_le. unfold Prec_lt_emax in He. lia. }
  destruct (div_ok _ _ Hp He p h F1 ltac:(lra)) as (F2 & V2); [apply rnd_lt; lra|].
  assert (E3 := rnd_abs (B2R p / w)). rewrite <- V2 in E3.
  exists (fdiv o p h). set (q := fdiv o p h) in *. split; [reflexivity|]. split; [exact F2|].
  assert (E4 : Rabs (B2R q - T) <= 6 * E).
  { replace (B2R q - T) with ((B2R q - B2R p / w) + (B2R p / w - T)) by ring.
    eapply Rle_trans; [apply abs_add; [exact E3|exact E2]|].
    assert (u * Rabs (B2R p / w) <= u * (Rabs T + u * Rabs T)) by (apply Rmult_le_compat_l; lra).
    assert (u * (u * Rabs T) <= / 64 * (u * Rabs T)) by (apply Rmult_le_compat_r; lra). lra. }
  split; [exact E4|]. apply (to_isize_fits prec emax Hp He); auto.
  assert (P64 : bpow radix2 prec <= 2 * IZR (2 ^ 63)).
  { apply Rle_trans with (bpow radix2 64); [apply bpow_le; auto|]. simpl. lra. }
  assert (P63 : 1 <= IZR (2 ^ 63)) by (apply IZR_le; lia).
  apply Rabs_le_inv in E4. apply Rabs_le_inv in TS. split; lra.
Qed.

(** Outside the axis the outermost cell is chosen. *)
Lemma cell_outside : T < 0 \/ IZR (d - 1) < T ->
  exists i, reg_cell o start h d x = Ok i /\ in_cell a X i.
Proof using All.
  intros HT. destruct cell_error_any as (q & Eq & _ & Er & Ei). apply Rabs_le_inv in Er.
  assert (L := Zfloor_lb (B2R q)). assert (M := Zfloor_ub (B2R q)). set (z := Zfloor (B2R q)) in *.
  assert (Q := T_any).
  exists (Z.min (Z.max z 0) (d - 2)). split.
  { unfold reg_cell. rewrite <- Eq, Ei. reflexivity. }
  destruct HT as [HT|HT].
  - assert (z < 1)%Z by (apply lt_IZR; lra). replace (Z.min _ _) with 0%Z by lia.
    split; [cbn [npts]; lia|]. split; [left; reflexivity|right]. cbn [coord]. change (IZR (0 + 1)) with 1.
    assert (w * T <= w * 0) by (apply Rmult_le_compat_l; lra). lra.
  - assert (d - 3 < z)%Z.
    { apply lt_IZR. replace (d - 3)%Z with (d - 1 - 2)%Z by lia. rewrite minus_IZR. lra. }
    replace (Z.min _ _) with (d - 2)%Z by lia.
    split; [cbn [npts]; lia|]. split; [right|left; reflexivity]. cbn [coord].
    assert (IZR (d - 2) <= IZR (d - 1)) by (apply IZR_le; lia).
    assert (w * IZR (d - 2) <= w * T) by (apply Rmult_le_compat_l; lra). lra.
Qed.

Lemma position_outside fma i G : (0 <= i <= d - 2)%Z -> 1 <= G -> G <= bpow radix2 (emax - 4) -> Rabs (T - IZR i) <= G ->
  fin (reg_dtp o fma start h x i) /\ Rabs (B2R (reg_dtp o fma start h x i) - (T - IZR i)) <= 8 * E * G.
Proof using All.
  intros Hi G1 GX Hti. destruct kappa_half_any as (K1 & K2). destruct u_small_any as (U2 & U64). assert (U := u_pos).
  destruct (eta_small prec emax Hp He U64) as (N1 & _). assert (N := eta_pos).
  destruct (node_error prec emax Hp He start h start d kappa Fs Fh Fs Ph Hd Hs Ht Hk HE start_inside Hprec fma i Hi) as (Fm & Em).
  assert (Cs := coord_size prec emax Hp He start h start d kappa Fs Fh Fs Ph Hd Hs Ht Hk HE start_inside Hprec i ltac:(lia)).
  unfold reg_dtp. set (m := if fma then _ else _) in *.
  assert (Q := T_any). set (t := T - IZR i) in *. assert (E0 : 0 <= E) by lra.
  assert (EW : 0 <= E * w) by (apply Rmult_le_pos; lra).
  assert (UE : E * w <= / 504 * w) by (apply Rmult_le_compat_r; lra).
  assert (D1 : Rabs ((X - B2R m) - w * t) <= 31 / 10 * (E * w)).
  { replace ((X - B2R m) - w * t) with (- (B2R m - (s + w * IZR i))) by (unfold t; rewrite Q at 1; ring). rewrite Rabs_Ropp. exact Em. }
  assert (WT : Rabs (w * t) <= w * G).
  { rewrite Rabs_mult, (Rabs_pos_eq w) by lra. apply Rmult_le_compat_l; [lra|auto]. }
  assert (WG : w * 1 <= w * G) by (apply Rmult_le_compat_l; lra).
  set (H := w * G) in *.
  assert (D2 : Rabs (X - B2R m) <= 102 / 100 * H).
  { replace (X - B2R m) with ((X - B2R m - w * t) + w * t) by ring. eapply Rle_trans; [apply abs_add; [exact D1|exact WT]|]. lra. }
  assert (B2 : bpow radix2 (emax - 1) = 4 * bpow radix2 (emax - 3)).
  { replace (emax - 1)%Z with (2 + (emax - 3))%Z by lia. rewrite bpow_plus. reflexivity. }
  assert (B4 : bpow radix2 (emax - 1) = 8 * bpow radix2 (emax - 4)).
  { replace (emax - 1)%Z with (3 + (emax - 4))%Z by lia. rewrite bpow_plus. reflexivity. }
  assert (B0 := bpow_gt_0 radix2 (emax - 3)).
  assert (WK : w <= 2 * (kappa * w)).
  { replace (2 * (kappa * w)) with ((2 * kappa) * w) by ring. assert (1 * w <= 2 * kappa * w) by (apply Rmult_le_compat_r; lra). lra. }
  assert (OV : Rabs (X - B2R m) <= bpow radix2 (emax - 1)).
  { apply Rabs_le_inv in Hx. apply Rabs_le_inv in Cs. apply Rabs_le_inv in Em. apply Rabs_le. lra. }
  destruct (sub_ok _ _ Hp He x m Fx Fm) as (F1 & V1); [apply rnd_lt; lra|].
  assert (E1 := rnd_rel (X - B2R m) ltac:(apply on_grid_sub; apply on_grid_fl)). rewrite <- V1 in E1.
  set (p := fsub o x m) in *.
  assert (EH : E * w <= E * H) by (apply Rmult_le_compat_l; lra).
  assert (UW : u * H <= 2 * (E * H)).
  { replace (2 * (E * H)) with (2 * E * H) by ring. apply Rmult_le_compat_r; lra. }
  assert (D3 : Rabs (B2R p - w * t) <= 515 / 100 * (E * H)).
  { replace (B2R p - w * t) with ((B2R p - (X - B2R m)) + ((X - B2R m) - w * t)) by ring.
    eapply Rle_trans; [apply abs_add; [exact E1|exact D1]|].
    assert (u * Rabs (X - B2R m) <= u * (102 / 100 * H)) by (apply Rmult_le_compat_l; lra). lra. }
  assert (D4 : Rabs (B2R p / w - t) <= 515 / 100 * (E * G)).
  { replace (B2R p / w - t) with ((B2R p - w * t) / w) by (field; lra). unfold Rdiv.
    rewrite Rabs_mult, (Rabs_pos_eq (/ w)) by (left; apply Rinv_0_lt_compat; auto).
    apply Rmult_le_reg_r with w; auto. rewrite Rmult_assoc, Rinv_l, Rmult_1_r by lra.
    replace (515 * / 100 * (E * G) * w) with (515 / 100 * (E * H)) by (unfold H; field). exact D3. }
  assert (EG : E * G <= / 504 * G) by (apply Rmult_le_compat_r; lra).
  assert (D5 : Rabs (B2R p / w) <= 103 / 100 * G).
  { replace (B2R p / w) with ((B2R p / w - t) + t) by ring. eapply Rle_trans; [apply abs_add; [exact D4|exact Hti]|]. lra. }
  destruct (div_ok _ _ Hp He p h F1 ltac:(lra)) as (F2 & V2); [apply rnd_lt; lra|].
  split; [exact F2|]. rewrite V2. assert (E3 := rnd_abs (B2R p / w)).
  replace (rnd (B2R p / w) - t) with ((rnd (B2R p / w) - B2R p / w) + (B2R p / w - t)) by ring.
  eapply Rle_trans; [apply abs_add; [exact E3|exact D4]|].
  assert (u * Rabs (B2R p / w) <= u * (103 / 100 * G)) by (apply Rmult_le_compat_l; lra).
  assert (u * G <= 2 * E * G) by (apply Rmult_le_compat_r; lra).
  assert (u * 1 <= u * G) by (apply Rmult_le_compat_l; lra). lra.
Qed.

(** Everything the sum over the corners needs to know about one axis. *)
Lemma axis_any fma : let G := 1 + 2 * overshoot a X in G <= bpow radix2 (emax - 4) ->
  exists i, reg_cell o start h d x = Ok i /\ (0 <= i <= d - 2)%Z /\
  fin (reg_dtp o fma start h x i) /\ Rabs (B2R (reg_dtp o fma start h x i) - (T - IZR i)) <= 8 * E * G /\
  Rabs (T - IZR i) <= (1 + 6 * E) * G /\
  Rabs (1 - (T - IZR i)) + Rabs (T - IZR i) <= (1 + 2 * (6 * E)) * G /\
  forall f M, (forall j, (0 <= j < d)%Z -> Rabs (f j) <= M) ->
    Rabs ((f i + (T - IZR i) * (f (i + 1)%Z - f i)) - lin1 a X f) <= 4 * (6 * E) * (G * M).
Proof using All.
  intros G GX. destruct u_small_any as (U2 & U64). assert (U := u_pos). assert (Q := T_any).
  assert (G1 : 1 <= G) by (unfold G; assert (Z := overshoot_nonneg a X); lra).
  assert (Ia : increasing_axis a) by (apply reg_axis_inc; auto).
  assert (Na : (2 <= npts a)%Z) by (cbn [npts]; lia).
  assert (Loc : forall i, local_coord a X i = T - IZR i).
  { intros i. unfold local_coord, reg_pos. cbn [coord]. rewrite plus_IZR. field. lra. }
  assert (Dec : (T < 0 \/ IZR (d - 1) < T) \/ 0 <= T <= IZR (d - 1)).
  { destruct (Rlt_le_dec T 0); [left; left; auto|]. destruct (Rlt_le_dec (IZR (d - 1)) T); [left; right; auto|right; split; auto]. }
  assert (EG0 : 0 <= E * G) by (apply Rmult_le_pos; lra).
  destruct Dec as [Out|In].
  - destruct (cell_outside Out) as (i & Ei & Hc). exists i. assert (Hi := proj1 Hc). cbn [npts] in Hi.
    destruct (local_any _ _ _ Ia Na Hc) as (T1 & T2). rewrite Loc in T1, T2. fold G in T1, T2.
    destruct (position_outside fma i G Hi G1 GX T1) as (F & Er).
    split; [exact Ei|]. split; [exact Hi|]. split; [exact F|]. split; [exact Er|].
    split; [lra|]. split; [lra|]. intros f M Hf.
    rewrite (@lin1_weights _ Ia Na _ f _ Hc), Loc, Rminus_diag_eq by ring. rewrite Rabs_R0.
    assert (0 <= M) by (eapply Rle_trans; [apply Rabs_pos|apply (Hf 0%Z); lia]).
    replace (4 * (6 * E) * (G * M)) with (24 * (E * G) * M) by ring. apply Rmult_le_pos; lra.
  - assert (Hx' : s <= X <= s + w * IZR (d - 1)).
    { assert (w * 0 <= w * T) by (apply Rmult_le_compat_l; lra). assert (w * T <= w * IZR (d - 1)) by (apply Rmult_le_compat_l; lra). lra. }
    destruct (cell_ok prec emax Hp He start h x d kappa Fs Fh Fx Ph Hd Hs Ht Hk HE Hx' Hprec) as (i & Ei & Hi & Ri).
    exists i. split; [exact Ei|]. split; [exact Hi|].
    destruct (reg_position_error prec emax Hp He start h x d kappa Fs Fh Fx Ph Hd Hs Ht Hk HE Hx' Hprec fma i Hi Ri) as (F & Er).
    split; [exact F|]. assert (EG : E * 1 <= E * G) by (apply Rmult_le_compat_l; lra).
    set (t := T - IZR i) in *.
    split; [lra|]. split; [assert (Rabs t <= 1 + 6 * E) by (apply Rabs_le; lra); lra|]. split.
    + assert (Rabs (1 - t) + Rabs t <= 1 + 2 * (6 * E)); [|lra].
      unfold Rabs. destruct (Rcase_abs (1 - t)), (Rcase_abs t); lra.
    + intros f M Hf. eapply Rle_trans; [exact (piece_error prec emax Hp He start h x d kappa Fs Fh Fx Ph Hd Hs Ht Hk HE Hx' Hprec i f M Hi Ri Hf)|].
      assert (0 <= M) by (eapply Rle_trans; [apply Rabs_pos|apply (Hf 0%Z); lia]).
      assert (1 * M <= G * M) by (apply Rmult_le_compat_r; lra).
      apply Rmult_le_compat_l; lra.
Qed.
End Axis.

Theorem reach_regular c dims starts steps vals eval x A kappa :
  float_regular Hp He c dims starts steps vals eval ->
  axes_within prec emax kappa starts steps dims -> length x = length dims -> point_within prec emax kappa steps x ->
  0 <= A -> Forall (fun v => fin v /\ Rabs (B2R v) <= A) vals ->
  reach_fits emax (reg_axes dims (map B2R starts) (map B2R steps)) (map B2R x) A ->
  504 * INR (length dims) * (u * kappa) <= 1 -> (prec <= 64)%Z ->
  Forall (good_axis 2) (reg_axes dims (map B2R starts) (map B2R steps)) /\
  exists y, eval x = Ok y /\ fin y /\
  Rabs (B2R y - tenL (ops1 lin1 (reg_axes dims (map B2R starts) (map B2R steps)) (map B2R x))
                     (entry 0 (map npts (reg_axes dims (map B2R starts) (map B2R steps))) (map B2R vals)))
   <= reach_factor (reg_axes dims (map B2R starts) (map B2R steps)) (map B2R x) * regular_error prec emax (length dims) kappa A.
Proof.
  intros H Hax Lx Hxk A0 Hv (HP & HA) HN Hprec.
  destruct (float_regular_inv _ _ _ _ _ _ _ _ _ _ H) as (W & P & fma & E).
  assert (W' := W). destruct W' as (W0 & W1 & W2 & W3 & W4). cbn [r_dims r_starts r_steps r_vals] in *.
  assert (L1 : length (map (@B2R prec emax) starts) = length dims) by (rewrite map_length; auto).
  assert (L2 : length (map (@B2R prec emax) steps) = length dims) by (rewrite map_length; auto).
  assert (La := reg_axes_length _ _ _ L1 L2). assert (Dm := reg_axes_npts _ _ _ L1 L2).
  rewrite E by auto.
  assert (N1 : 1 <= INR (length dims)).
  { change 1 with (INR 1). apply le_INR. lia. }
  assert (U := u_pos).
  set (axes := reg_axes dims (map B2R starts) (map B2R steps)) in *.
  set (st := fun k => nth k starts (fzero o)). set (sp := fun k => nth k steps (fzero o)).
  set (xx := fun k => nth k x (fzero o)). set (dd := fun k => nth k dims 0%Z).
  assert (NA : forall k, (k < length dims)%nat -> nth k axes ax0 = mkAxis (dd k) (fun i => B2R (st k) + B2R (sp k) * IZR i)).
  { intros k Hk. unfold axes. rewrite reg_axes_nth by auto. rewrite !(nth_B2R _ _ Hp He). reflexivity. }
  assert (NE : forall k, (k < length dims)%nat -> nth_error axes k = Some (mkAxis (dd k) (fun i => B2R (st k) + B2R (sp k) * IZR i))).
  { intros k Hk. rewrite <- NA by auto. apply nth_error_nth_some. lia. }
  assert (AX : forall k, (k < length dims)%nat -> fin (st k) /\ fin (sp k) /\ fin (xx k) /\ 0 < B2R (sp k) /\ (2 <= dd k)%Z /\
    Rabs (B2R (st k)) <= kappa * B2R (sp k) /\ Rabs (B2R (st k) + B2R (sp k) * IZR (dd k - 1)) <= kappa * B2R (sp k) /\
    kappa * B2R (sp k) <= bpow radix2 (emax - 3) /\ Rabs (B2R (xx k)) <= kappa * B2R (sp k)).
  { intros k Hk.
    destruct (Hax k (st k) (sp k) (dd k)) as (F0 & F1 & H1 & H2 & H3); try (apply nth_error_nth_some; lia).
    destruct (Hxk k (sp k) (xx k)) as (F2 & H4); try (apply nth_error_nth_some; lia).
    split; [auto|]. split; [auto|]. split; [auto|].
    split. { assert (Q : flt o (fzero o) (sp k) = true) by (apply (Forall_nth_lt (fzero o) P); lia). apply ltb_fin in Q; auto. }
    split; [apply (Forall_nth_lt 0%Z W3 Hk)|]. auto. }
  assert (Good : Forall (good_axis 2) axes).
  { apply reg_axes_good; auto. rewrite Forall_map. apply Forall_nth. intros k dflt Hk. rewrite (nth_indep _ dflt (fzero o)) by auto.
    apply (AX k). lia. }
  split; [exact Good|].
  assert (K0 : 0 <= u * kappa).
  { apply Rmult_le_pos; [lra|]. destruct (AX 0%nat ltac:(lia)) as (F1 & F2 & F3 & P1 & D1 & B1 & B2 & B3 & R).
    apply Rmult_le_reg_r with (B2R (sp 0%nat)); auto. assert (Q := Rabs_pos (B2R (st 0%nat))). lra. }
  assert (HE : 504 * (u * kappa) <= 1) by nra.
  set (G := fun k => 1 + 2 * outside_by axes (map B2R x) k).
  assert (GE : forall k, (k < length dims)%nat -> G k = 1 + 2 * overshoot (mkAxis (dd k) (fun i => B2R (st k) + B2R (sp k) * IZR i)) (B2R (xx k))).
  { intros k Hk. unfold G. rewrite (outside_nth _ _ _ _ (NE k Hk)), (nth_B2R _ _ Hp He). reflexivity. }
  assert (G1 : forall k, (k < length dims)%nat -> 1 <= G k) by (intros k Hk; exact (gain_nth _ _ _ _ (NE k Hk))).
  assert (GP : forall k, (k < length dims)%nat -> G k <= bpow radix2 (emax - 4)).
  { intros k Hk. eapply Rle_trans; [apply gain_le_factor; lia|exact HP]. }
  assert (CE : forall k, (k < length dims)%nat -> exists i, reg_cell o (st k) (sp k) (dd k) (xx k) = Ok i /\ (0 <= i <= dd k - 2)%Z /\
    fin (reg_dtp o fma (st k) (sp k) (xx k) i) /\ Rabs (B2R (reg_dtp o fma (st k) (sp k) (xx k) i) - (reg_pos prec emax (st k) (sp k) (xx k) - IZR i)) <= 8 * (u * kappa) * G k /\
    Rabs (reg_pos prec emax (st k) (sp k) (xx k) - IZR i) <= (1 + 6 * (u * kappa)) * G k /\
    Rabs (1 - (reg_pos prec emax (st k) (sp k) (xx k) - IZR i)) + Rabs (reg_pos prec emax (st k) (sp k) (xx k) - IZR i) <= (1 + 2 * (6 * (u * kappa))) * G k /\
    forall f M, (forall j, (0 <= j < dd k)%Z -> Rabs (f j) <= M) ->
      Rabs ((f i + (reg_pos prec emax (st k) (sp k) (xx k) - IZR i) * (f (i + 1)%Z - f i)) - lin1 (mkAxis (dd k) (fun i => B2R (st k) + B2R (sp k) * IZR i)) (B2R (xx k)) f) <= 4 * (6 * (u * kappa)) * (G k * M)).
  { intros k Hk. destruct (AX k Hk) as (F1 & F2 & F3 & P1 & D1 & B1 & B2 & B3 & R). assert (GX := GP k Hk). rewrite (GE k Hk) in *.
    exact (axis_any (st k) (sp k) (xx k) (dd k) kappa F1 F2 F3 P1 D1 B1 B2 B3 HE R Hprec fma GX). }
  destruct (AX 0%nat ltac:(lia)) as (F1 & F2 & F3 & P1 & D1 & B1 & B2 & B3 & R).
  destruct (u_small_any (st 0%nat) (sp 0%nat) (xx 0%nat) (dd 0%nat) kappa F1 F2 F3 P1 D1 B1 B2 B3 HE R Hprec) as (U2 & Hu).
  clear F1 F2 F3 P1 D1 B1 B2 B3 R.
  destruct (mapM_total _ _ (fun k => reg_cell o (st k) (sp k) (dd k) (xx k)) (seq 0 (length dims))) as (os & Eos).
  { intros k Hk. apply in_seq in Hk. destruct (CE k ltac:(lia)) as (i & -> & _). eauto. }
  assert (Eos' : reg_cells o (mkRegular dims starts steps vals) x = Ok os) by exact Eos.
  rewrite Eos'. cbn [bind].
  eexists. split; [reflexivity|].
  assert (CO : forall k, (k < length dims)%nat -> reg_cell o (st k) (sp k) (dd k) (xx k) = Ok (nth k os 0%Z)).
  { intros k Hk. exact (@mapM_snoc_nth _ 0%Z _ _ _ Eos k Hk). }
  assert (Lm : length (map B2R x) = length axes) by (rewrite map_length; lia).
  assert (LF := good_lin _ Lm Good). rewrite Dm in *.
  assert (Hnd : forall k, (k < length dims)%nat -> nth k (ops1 lin1 axes (map B2R x)) (fun _ => 0) =
     lin1 (mkAxis (dd k) (fun i => B2R (st k) + B2R (sp k) * IZR i)) (B2R (xx k))).
  { intros k Hk. rewrite ops1_nth by (rewrite ?map_length; lia). rewrite NA by auto. rewrite (nth_B2R _ _ Hp He). reflexivity. }
  destruct (tens_any Hu c dims os (entry (fzero o) dims vals) (ops1 lin1 axes (map B2R x))
     (fun k => reg_dtp o fma (st k) (sp k) (xx k) (nth k os 0%Z)) (fun k => reg_pos prec emax (st k) (sp k) (xx k) - IZR (nth k os 0%Z)) G
     (8 * (u * kappa)) (6 * (u * kappa)) A) with (k := length dims) (suf := @nil Z) as (F & Er).
  - exact (@reg_cells_foot _ o _ x os W Eos').
  - exact LF.
  - exact G1.
  - intros k f M Hk Hf. rewrite Hnd, GE by auto. destruct (Forall_nth_lt ax0 Good (k := k) ltac:(lia)) as (Ia & Na). rewrite NA in Ia, Na by auto.
    apply (lin1_norm_any _ Ia Na). intros i Hi. apply Hf. exact Hi.
  - intros idx. apply (entry_bound _ _ Hp He); auto.
  - lra.
  - lra.
  - intros k Hk. destruct (CE k Hk) as (i & Ei & Hi & H1 & H2 & H3 & H4 & _). rewrite (CO k Hk) in Ei. injection Ei as <-. auto.
  - intros k f M Hk Hf. rewrite Hnd by auto. destruct (CE k Hk) as (i & Ei & Hi & _ & _ & _ & _ & H5). rewrite (CO k Hk) in Ei. injection Ei as <-. apply H5. exact Hf.
  - assert (INR (length dims) * u <= INR (length dims) * (2 * (u * kappa))) by (apply Rmult_le_compat_l; lra). lra.
  - unfold reach_factor in HP. rewrite La in HP. exact HP.
  - unfold reach_factor in HA. rewrite La in HA. exact HA.
  - lia.
  - unfold mlr_value. cbn [r_dims r_starts r_steps r_vals].
    split; [exact F|].
    assert (LO : length (ops1 lin1 axes (map B2R x)) = length dims) by (rewrite ops1_length by auto; lia).
    replace (firstn (length dims) (ops1 lin1 axes (map B2R x))) with (ops1 lin1 axes (map B2R x)) in Er by (rewrite <- LO, firstn_all; reflexivity).
    rewrite (tenL_ext _ (fun idx => B2R (entry (fzero o) dims vals (idx ++ []))) LF).
    2:{ intros idx _. rewrite app_nil_r. apply (entry_real _ _ Hp He). }
    eapply Rle_trans; [exact Er|]. unfold reach_factor. rewrite La. fold G.
    assert (P0 := prod_upto_ge1 (length dims) G G1).
    apply Rmult_le_compat_l; [lra|]. unfold regular_error, roundoff, underflow. apply Rmult_le_compat_l; [lra|].
    assert (u * A <= 2 * (u * kappa) * A) by (apply Rmult_le_compat_r; lra).
    assert (0 <= u * kappa * A) by (apply Rmult_le_pos; lra). lra.
Qed.
End B.
