(** Rounding errors of the multicubic interpolators on regular grids, at points that may lie
    outside the grid. *)
From Coq Require Import Reals Lra Lia List Bool ZifyBool ZifyNat PeanoNat.
From Flocq Require Import Core.Core IEEE754.BinarySingleNaN.
From Verif Require Import Base Ops FInst ModelCore ModelLinear ModelCubic Spec SpecOrder SpecIEEE SpecError SpecCubicError SpecExtrap SpecReach SpecCubicReach.
From Verif Require Import CoreLemmas TensorLemmas MethodLemmas MethodChar GenLemmas FLemmas UtilProofs FProofs FProofs2 FError.
From Verif Require Import RInst SpecReal SpecApprox RTensor R1D RChar Approx1D Extrap1D Interpolators REval RProofs Extrap FExtrap.
From Verif Require Import FCubic FCubicReg FCubicFar FCubicExtrap.
Import ListNotations.
Unset Implicit Arguments.
Open Scope list_scope.
Open Scope R_scope.

Section B.
Variables prec emax : Z.
Context (Hp : Prec_gt_0 prec) (He : Prec_lt_emax prec emax).
Notation fl := (binary_float prec emax).
Notation o := (BOps Hp He).
Notation emin := (3 - emax - prec)%Z.
Notation fin x := (is_finite x = true).
Notation rnd := (rnd prec emax).
Notation u := (bpow radix2 (- prec)).
Notation eta := (/ 2 * bpow radix2 emin).

(** ** One step *)
Section Cell.
Variables (lin : bool) (B E T : R).
Notation st := (T ^ (if lin then 1 else 3)).
Hypothesis HuE : u <= 2 * E.
Hypothesis HE : 2000 * E <= 1.
Hypothesis B0 : 0 <= B.
Hypothesis T1 : 1 <= T.
Hypothesis HT : st <= bpow radix2 (emax - 8).
Hypothesis HB : st * B <= bpow radix2 (emax - 8).
Notation near := (near prec emax B E eta).
Notation nearT := (FCubic.near prec emax (st * B) E (st * eta)).

Lemma unit_T : unit_ok prec emax (st * B) E (st * eta).
Proof using All.
  assert (U := u_pos prec). assert (N := eta_pos prec emax).
  assert (S := stretch_1 T lin T1). assert (ES := eta_stretch prec emax Hp He st HT).
  repeat split; auto; try lra.
  - apply Rmult_le_pos; lra.
  - assert (1 * eta <= st * eta) by (apply Rmult_le_compat_r; lra). lra.
Qed.
Lemma unit_B : unit_ok prec emax B E eta.
Proof using All.
  destruct unit_T as (S1 & S2 & S3 & S4 & S5 & S6). assert (N := eta_pos prec emax). assert (S := stretch_1 T lin T1).
  assert (1 * B <= st * B) by (apply Rmult_le_compat_r; lra). assert (1 * eta <= st * eta) by (apply Rmult_le_compat_r; lra).
  repeat split; auto; lra.
Qed.
Lemma T_top2 : T <= bpow radix2 (emax - 8).
Proof using T1 HT. eapply Rle_trans; [apply (stretch_T T lin T1)|exact HT]. Qed.

Lemma hermite_T c th t tau y0 v0 dy d k0 m0 k1 m1 : lin = false -> far prec emax E T th t tau -> tau <= 16 ->
  near y0 v0 1 0 -> near dy d 2 6 -> near k0 m0 2 11 -> near k1 m1 6 46 ->
  Rabs (m0 - d) <= 4 * B -> Rabs (d - m1) <= 4 * B -> Rabs (3 * d - 2 * m0 - m1) <= 8 * B -> Rabs (m0 + m1 - 2 * d) <= 6 * B ->
  nearT (hermite o c th y0 dy k0 k1) (v0 + t * (m0 + t * ((3 * d - 2 * m0 - m1) + t * (m0 + m1 - 2 * d)))) 18 1200.
Proof using All.
  intros Hl. intros. assert (US := unit_T). assert (N := eta_pos prec emax). rewrite Hl in *. cbn [pow] in *. rewrite Rmult_1_r in *.
  assert (E1 : T * (T * T) * B = T * (T * (T * B))) by ring.
  assert (E2 : T * (T * T) * eta = T * (T * (T * eta))) by ring.
  rewrite E1, E2 in *.
  apply (hermite_far prec emax Hp He E T T1 B eta) with (tau := tau); auto. lra.
Qed.
Lemma linear_T fma th t tau y v k m : lin = true -> fin th -> Rabs (B2R th - t) <= tau * (E * T) -> 0 <= tau <= 17 -> Rabs (t - 1) <= T ->
  near y v 1 0 -> near k m 6 46 -> nearT (linear_ext o fma y k th) (v + m * (t - 1)) 18 1200.
Proof using All.
  intros Hl. intros. assert (US := unit_T). assert (TT := T_top2). assert (N := eta_pos prec emax). rewrite Hl in *. rewrite pow_1 in *.
  apply (linear_far prec emax Hp He E T T1 B eta) with (tau := tau); auto. lra.
Qed.

Definition sat_far (sat : saturation) (t : R) : Prop :=
  match sat with
  | OutsideLow => 1 <= - t <= T
  | OutsideHigh => 1 <= t - 1 <= T
  | _ => False
  end.

Ltac box := repeat match goal with H : Rabs _ <= B |- _ => apply Rabs_le_inv in H end; apply Rabs_le; lra.

Lemma reg_far c fo sat th t v0 v1 v2 v3 : fin th -> Rabs (B2R th - t) <= 12 * (E * T) -> sat_far sat t ->
  fin v0 -> fin v1 -> fin v2 -> fin v3 -> Rabs (B2R v0) <= B -> Rabs (B2R v1) <= B -> Rabs (B2R v2) <= B -> Rabs (B2R v3) <= B ->
  nearT (reg_innerp o c fo lin sat th [v0; v1; v2; v3])
        (reg_innerp ROps c fo lin sat t [B2R v0; B2R v1; B2R v2; B2R v3]) 18 1200.
Proof using All.
  intros Ft Dt St F0 F1 F2 F3 H0 H1 H2 H3. destruct unit_B as (S1 & S2 & S3 & S4 & S5). assert (TT := T_top2).
  assert (Val : forall v, fin v -> Rabs (B2R v) <= B -> near v (B2R v) 1 0) by (intros; apply near_val; auto).
  assert (Diff : forall x y, fin x -> fin y -> Rabs (B2R x) <= B -> Rabs (B2R y) <= B -> near (fsub o x y) (B2R x - B2R y) 2 6)
    by exact (diff_near prec emax Hp He B E eta S1 S2 S3 S4 S5).
  assert (Half : forall x y, fin x -> fin y -> Rabs (B2R x) <= B -> Rabs (B2R y) <= B ->
     near (fdiv o (fsub o x y) (fadd o (fone o) (fone o))) ((B2R x - B2R y) / 2) 1 7).
  { intros x y Fx Fy Hx Hy. eapply (near_half prec emax Hp He B E eta S1 S2 S3 S4 S5); [apply Diff; auto|lra| |lra..]. box. }
  assert (NHalf : forall x y, fin x -> fin y -> Rabs (B2R x) <= B -> Rabs (B2R y) <= B ->
     near (fdiv o (fneg o (fsub o x y)) (fadd o (fone o) (fone o))) ((- (B2R x - B2R y)) / 2) 1 7).
  { intros x y Fx Fy Hx Hy. eapply (near_half prec emax Hp He B E eta S1 S2 S3 S4 S5); [apply near_neg, Diff; auto|lra| |lra..]. box. }
  assert (Nat_ : forall fma dy d k m, near dy d 2 6 -> near k m 1 7 -> near (natural_k1 o fma dy k) (2 * d - m) 6 46).
  { intros fma dy d k m Hd Hk. apply (near_weaken prec emax Hp He B E eta S1 S2 S3 S4 S5) with (m := 5) (e := 42); try lra.
    eapply (near_natural prec emax Hp He B E eta S1 S2 S3 S4 S5); [exact Hd|exact Hk|lra..| |lra|lra|lra].
    destruct Hd as (_ & Hd & _), Hk as (_ & Hk & _). apply Rabs_le_inv in Hd, Hk. apply Rabs_le. lra. }
  assert (W2 : forall x v, near x v 1 7 -> near x v 2 11) by (intros; eapply (near_weaken prec emax Hp He B E eta S1 S2 S3 S4 S5); eauto; lra).
  destruct sat; cbn [sat_far] in St; try contradiction; unfold reg_innerp; cbn [reg_inner].
  - assert (Pn : far prec emax E T (fneg o th) (- t) 12).
    { split; [cbn [fneg BOps]; rewrite is_finite_Bopp; auto|]. split; [rewrite Rabs_pos_eq; lra|]. split; [|lra].
      cbn [fneg BOps]. rewrite B2R_Bopp. replace (- B2R th - - t) with (- (B2R th - t)) by ring. rewrite Rabs_Ropp. exact Dt. }
    destruct (Bool.bool_dec lin true) as [El|El].
    + assert (Q := linear_T (use_fma c) (fneg o th) (- t) 12 v0 _ _ _ El (proj1 Pn) (proj1 (proj2 (proj2 Pn))) ltac:(lra) ltac:(rewrite Rabs_pos_eq; lra)
        (Val v0 F0 H0) (Nat_ fo _ _ _ _ (Diff v0 v1 F0 F1 H0 H1) (NHalf v2 v0 F2 F0 H2 H0))).
      rewrite El at 3 4. eapply near_eq; [exact Q|].
      unfold linear_ext, natural_k1. cbn. destruct (use_fma c), fo; field.
    + apply Bool.not_true_is_false in El.
      assert (Q := hermite_T c (fneg o th) (- t) 12 v1 _ _ _ _ _ _ _ El Pn ltac:(lra) (Val v1 F1 H1) (Diff v0 v1 F0 F1 H0 H1) (W2 _ _ (NHalf v2 v0 F2 F0 H2 H0))
        (Nat_ fo _ _ _ _ (Diff v0 v1 F0 F1 H0 H1) (NHalf v2 v0 F2 F0 H2 H0)) ltac:(box) ltac:(box) ltac:(box) ltac:(box)).
      rewrite El at 3 4. eapply near_eq; [exact Q|].
      unfold hermite, natural_k1. cbn. destruct (use_fma c), fo; field.
  - assert (Ps := far_sub_one prec emax Hp He E T T1 th t 12 HuE HE TT Ft Dt ltac:(lra) ltac:(rewrite Rabs_pos_eq; lra)).
    destruct (Bool.bool_dec lin true) as [El|El].
    + assert (Q := linear_T (use_fma c) _ _ _ v3 _ _ _ El (proj1 Ps) (proj1 (proj2 (proj2 Ps))) ltac:(lra) ltac:(rewrite Rabs_pos_eq; lra)
        (Val v3 F3 H3) (Nat_ (use_fma c) _ _ _ _ (Diff v3 v2 F3 F2 H3 H2) (Half v3 v1 F3 F1 H3 H1))).
      rewrite El at 3 4. eapply near_eq; [exact Q|].
      unfold linear_ext, natural_k1. cbn. destruct (use_fma c), fo; field.
    + apply Bool.not_true_is_false in El.
      assert (Q := hermite_T c _ _ _ v2 _ _ _ _ _ _ _ El Ps ltac:(lra) (Val v2 F2 H2) (Diff v3 v2 F3 F2 H3 H2) (W2 _ _ (Half v3 v1 F3 F1 H3 H1))
        (Nat_ (use_fma c) _ _ _ _ (Diff v3 v2 F3 F2 H3 H2) (Half v3 v1 F3 F1 H3 H1)) ltac:(box) ltac:(box) ltac:(box) ltac:(box)).
      rewrite El at 3 4. eapply near_eq; [exact Q|].
      unfold hermite, natural_k1. cbn. destruct (use_fma c), fo; field.
Qed.
End Cell.

(** ** One axis *)
Section Axis.
Variables (start h x : fl) (d : Z) (kappa : R).
Notation s := (B2R start).
Notation w := (B2R h).
Notation X := (B2R x).
Notation E := (u * kappa).
Hypothesis Fs : fin start.
Hypothesis Fh : fin h.
Hypothesis Fx : fin x.
Hypothesis Ph : 0 < w.
Hypothesis Hd : (4 <= d)%Z.
Hypothesis Hs : Rabs s <= kappa * w.
Hypothesis Ht : Rabs (s + w * IZR (d - 1)) <= kappa * w.
Hypothesis Hk : kappa * w <= bpow radix2 (emax - 3).
Hypothesis HE : 2000 * E <= 1.
Hypothesis Hx : Rabs X <= kappa * w.
Hypothesis Hprec : (prec <= 64)%Z.
Notation a := (mkAxis d (fun i => s + w * IZR i)).
Notation P := (reg_pos prec emax start h x).

Lemma facts2 : u <= 2 * E /\ u <= / 64 /\ 504 * E <= 1 /\ 0 < E /\ X = s + w * P /\ (2 <= d)%Z /\ Rabs P <= IZR (2 ^ 62).
Proof using All.
  assert (U := u_pos prec).
  assert (K : / 2 <= kappa).
  { apply Rabs_le_inv in Hs. apply Rabs_le_inv in Ht. assert (D : 1 <= IZR (d - 1)) by (apply IZR_le; lia).
    assert (IZR (d - 1) <= 2 * kappa) by (apply Rmult_le_reg_l with w; auto; lra). lra. }
  assert (u * / 2 <= E) by (apply Rmult_le_compat_l; lra).
  assert (Q : X = s + w * P) by (unfold reg_pos; field; lra).
  assert (D2 : (2 <= d)%Z) by lia. assert (H504 : 504 * E <= 1) by lra.
  assert (TS := T_size prec emax Hp He start h x d kappa Fs Fh Fx Ph D2 Hs Ht Hk H504 Hx Hprec).
  assert (SB := size_bound_any prec emax Hp He start h x d kappa Fs Fh Fx Ph D2 Hs Ht Hk H504 Hx Hprec).
  assert (P64 : bpow radix2 prec <= 4 * IZR (2 ^ 62)).
  { apply Rle_trans with (bpow radix2 64); [apply bpow_le; auto|]. simpl. lra. }
  assert (1 <= IZR (2 ^ 62)) by (apply IZR_le; lia).
  repeat split; try lra; try lia.
Qed.

(** The position of the point relative to node [i], at most [G] steps away. *)
Lemma position_far i G : (0 <= i <= d - 2)%Z -> 1 <= G -> G <= bpow radix2 (emax - 4) -> Rabs (P - IZR i) <= G ->
  fin (reg_dtp o false start h x i) /\ Rabs (B2R (reg_dtp o false start h x i) - (P - IZR i)) <= (16 / 5 + 41 / 10 * G) * E.
Proof using All.
  intros Hi G1 GX Hti. destruct facts2 as (U2 & U64 & H504 & E0 & Q & D2 & _). assert (U := u_pos prec).
  destruct (eta_small prec emax Hp He U64) as (N1 & _). assert (N := eta_pos prec emax).
  assert (SI := start_inside prec emax Hp He start h x d kappa Fs Fh Fx Ph D2 Hs Ht Hk H504 Hx Hprec).
  destruct (kappa_half_any prec emax Hp He start h x d kappa Fs Fh Fx Ph D2 Hs Ht Hk H504 Hx Hprec) as (K1 & _).
  destruct (node_error prec emax Hp He start h start d kappa Fs Fh Fs Ph D2 Hs Ht Hk H504 SI Hprec false i Hi) as (Fm & Em).
  assert (Cs := coord_size prec emax Hp He start h start d kappa Fs Fh Fs Ph D2 Hs Ht Hk H504 SI Hprec i ltac:(lia)).
  unfold reg_dtp. set (m := fadd o start _) in *.
  set (t := P - IZR i) in *.
  assert (EW : 0 <= E * w) by (apply Rmult_le_pos; lra).
  assert (UE : E * w <= / 2000 * w) by (apply Rmult_le_compat_r; lra).
  assert (D1 : Rabs ((X - B2R m) - w * t) <= 31 / 10 * (E * w)).
  { replace ((X - B2R m) - w * t) with (- (B2R m - (s + w * IZR i))) by (unfold t; rewrite Q at 1; ring). rewrite Rabs_Ropp. exact Em. }
  assert (WT : Rabs (w * t) <= w * G).
  { rewrite Rabs_mult, (Rabs_pos_eq w) by lra. apply Rmult_le_compat_l; [lra|auto]. }
  assert (WG : w * 1 <= w * G) by (apply Rmult_le_compat_l; lra).
  set (H := w * G) in *.
  assert (Dm : Rabs (X - B2R m) <= 101 / 100 * H).
  { replace (X - B2R m) with ((X - B2R m - w * t) + w * t) by ring. eapply Rle_trans; [apply abs_add; [exact D1|exact WT]|]. lra. }
  assert (B2 : bpow radix2 (emax - 1) = 4 * bpow radix2 (emax - 3)).
  { replace (emax - 1)%Z with (2 + (emax - 3))%Z by lia. rewrite bpow_plus. reflexivity. }
  assert (B4 : bpow radix2 (emax - 1) = 8 * bpow radix2 (emax - 4)).
  { replace (emax - 1)%Z with (3 + (emax - 4))%Z by lia. rewrite bpow_plus. reflexivity. }
  assert (B0 := bpow_gt_0 radix2 (emax - 3)).
  assert (WK : w <= 2 * (kappa * w)).
  { replace (2 * (kappa * w)) with ((2 * kappa) * w) by ring. assert (1 * w <= 2 * kappa * w) by (apply Rmult_le_compat_r; lra). lra. }
  assert (OV : Rabs (X - B2R m) <= bpow radix2 (emax - 1)).
  { apply Rabs_le_inv in Hx. apply Rabs_le_inv in Cs. apply Rabs_le_inv in Em. apply Rabs_le. lra. }
  destruct (sub_ok _ _ Hp He x m Fx Fm) as (F1 & V1); [apply (rnd_lt prec emax Hp He); lra|].
  assert (E1 := rnd_rel prec emax Hp (X - B2R m) ltac:(apply on_grid_sub; apply on_grid_fl)). rewrite <- V1 in E1.
  set (p := fsub o x m) in *.
  assert (UW : u * H <= 2 * (E * H)).
  { replace (2 * (E * H)) with (2 * E * H) by ring. apply Rmult_le_compat_r; [|lra]. unfold H. apply Rmult_le_pos; lra. }
  assert (D3 : Rabs (B2R p - w * t) <= 31 / 10 * (E * w) + 202 / 100 * (E * H)).
  { replace (B2R p - w * t) with ((B2R p - (X - B2R m)) + ((X - B2R m) - w * t)) by ring.
    eapply Rle_trans; [apply abs_add; [exact E1|exact D1]|].
    assert (u * Rabs (X - B2R m) <= u * (101 / 100 * H)) by (apply Rmult_le_compat_l; lra). lra. }
  assert (D4 : Rabs (B2R p / w - t) <= 31 / 10 * E + 202 / 100 * (E * G)).
  { replace (B2R p / w - t) with ((B2R p - w * t) / w) by (field; lra). unfold Rdiv.
    rewrite Rabs_mult, (Rabs_pos_eq (/ w)) by (left; apply Rinv_0_lt_compat; auto).
    apply Rmult_le_reg_r with w; auto. rewrite Rmult_assoc, Rinv_l, Rmult_1_r by lra.
    eapply Rle_trans; [exact D3|]. unfold H. right. field. }
  assert (EG : E * G <= / 2000 * G) by (apply Rmult_le_compat_r; lra).
  assert (D5 : Rabs (B2R p / w) <= 101 / 100 * G).
  { replace (B2R p / w) with ((B2R p / w - t) + t) by ring. eapply Rle_trans; [apply abs_add; [exact D4|exact Hti]|]. lra. }
  destruct (div_ok _ _ Hp He p h F1 ltac:(lra)) as (F2 & V2); [apply (rnd_lt prec emax Hp He); lra|].
  split; [exact F2|]. rewrite V2. assert (E3 := rnd_abs prec emax Hp (B2R p / w)).
  replace (rnd (B2R p / w) - t) with ((rnd (B2R p / w) - B2R p / w) + (B2R p / w - t)) by ring.
  eapply Rle_trans; [apply abs_add; [exact E3|exact D4]|].
  assert (u * Rabs (B2R p / w) <= u * (101 / 100 * G)) by (apply Rmult_le_compat_l; lra).
  assert (u * G <= 2 * E * G) by (apply Rmult_le_compat_r; lra).
  assert (0 <= E * G) by (apply Rmult_le_pos; lra). lra.
Qed.

Lemma overshoot_reg D : overshoot a X <= D -> - P <= D /\ P - IZR (d - 1) <= D.
Proof using All.
  intros H. destruct facts2 as (_ & _ & _ & _ & Q & _). unfold overshoot in H. apply max_le in H as (_ & H). apply max_le in H as (H0 & H1).
  assert (Sp : forall i, spacing a i = w) by (intros i; unfold spacing; cbn [coord]; rewrite plus_IZR; ring). rewrite !Sp in *. cbn [coord npts] in *.
  replace ((s + w * 0 - X) / w) with (- P) in H0 by (unfold reg_pos; field; lra).
  replace ((X - (s + w * IZR (d - 1))) / w) with (P - IZR (d - 1)) in H1 by (unfold reg_pos; field; lra).
  split; lra.
Qed.

Theorem cubic_axis_far c D : 0 <= D -> overshoot a X <= D -> exists i sat, creg_cell o c start h d x = Ok (i, sat) /\
  forall fo lin vs B, let st := cubic_stretch lin D in st <= bpow radix2 (emax - 8) -> 0 <= B -> st * B <= bpow radix2 (emax - 8) ->
  (forall i, fin (vs i) /\ Rabs (B2R (vs i)) <= B) ->
  let r := reg_innerp o c fo lin sat (creg_dtp o start h x i) [vs i; vs (i + 1)%Z; vs (i + 2)%Z; vs (i + 3)%Z] in
  fin r /\ Rabs (B2R r - cub1 lin a X (fun i => B2R (vs i))) <= st * (1272 * E * B + 1200 * eta).
Proof using All.
  intros D0 HD. destruct facts2 as (U2 & U64 & H504 & E0 & Q & D2 & PB). assert (U := u_pos prec). assert (N := eta_pos prec emax).
  destruct (overshoot_reg D HD) as (O0 & O1).
  assert (Ga : good_axis 4 a) by (split; [apply reg_axis_inc; auto|exact Hd]).
  assert (Ia := proj1 Ga). assert (Na := proj2 Ga).
  assert (Stop : forall lin, cubic_stretch lin D <= bpow radix2 (emax - 8) -> 1 + D <= bpow radix2 (emax - 8)).
  { intros lin H. eapply Rle_trans; [|exact H]. apply stretch_T. lra. }
  assert (B84 : bpow radix2 (emax - 4) = 16 * bpow radix2 (emax - 8)).
  { replace (emax - 4)%Z with (4 + (emax - 8))%Z by lia. rewrite bpow_plus. reflexivity. }
  destruct (Rlt_le_dec P 0) as [Lo|Lo]; [|destruct (Rle_lt_dec P (IZR (d - 1))) as [Hi|Hi]].
  2:{ (* inside *)
    assert (Hx' : s <= X <= s + w * IZR (d - 1)).
    { assert (w * 0 <= w * P) by (apply Rmult_le_compat_l; lra). assert (w * P <= w * IZR (d - 1)) by (apply Rmult_le_compat_l; lra). lra. }
    destruct (cubic_axis_error prec emax Hp He start h x d kappa Fs Fh Fx Ph Hd Hs Ht Hk HE Hx' Hprec c) as (i & sat & Ec & Er).
    exists i, sat. split; [exact Ec|]. intros fo lin vs B st HT B0 HB Hv.
    assert (S1 : 1 <= st) by (apply stretch_1; lra).
    assert (1 * B <= st * B) by (apply Rmult_le_compat_r; lra).
    destruct (Er fo lin vs B ltac:(lra) Hv) as (F & Er'). split; [exact F|]. eapply Rle_trans; [exact Er'|].
    assert (0 <= E * B) by (apply Rmult_le_pos; lra).
    rewrite <- (Rmult_1_l (1272 * E * B + 1200 * eta)) at 1. apply Rmult_le_compat_r; lra. }
  all: destruct (cell_error_any prec emax Hp He start h x d kappa Fs Fh Fx Ph D2 Hs Ht Hk H504 Hx Hprec) as (q & Eq & _ & Er & Ei).
  all: set (z := Zfloor (B2R q)) in *; apply Rabs_le_inv in Er;
    assert (L := Zfloor_lb (B2R q) : IZR z <= B2R q); assert (M := Zfloor_ub (B2R q) : B2R q < IZR z + 1).
  all: apply Rabs_le_inv in PB.
  all: assert (P62 : IZR (- 2 ^ 63) + 4 <= - IZR (2 ^ 62)) by (rewrite <- opp_IZR, <- plus_IZR; apply IZR_le; lia).
  all: assert (Zs : (isize_min + 1 <= z <= isize_max)%Z);
    [split; [assert (isize_min < z)%Z; [apply lt_IZR; change (IZR isize_min) with (IZR (- 2 ^ 63)); lra|lia]|destruct (@to_isize_floor _ _ Hp He _ _ Ei) as (_ & _ & R); lia]|].
  all: assert (Ec : creg_cell o c start h d x = Ok (Z.min (Z.max (z - 1) 0) (d - 4), creg_sat d (z - 1)));
    [unfold creg_cell; rewrite <- Eq, Ei; cbn [ok_or bind]; rewrite isize_sub_ok by (unfold isize_min, isize_max in *; lia); reflexivity|].
  (* the exact value of a piece *)
  all: assert (PV : forall fo lin i sat j vs, cub_cell_sat d i sat j ->
      reg_innerp ROps c fo lin sat (P - IZR (i + 1)) [B2R (vs i); B2R (vs (i + 1)%Z); B2R (vs (i + 2)%Z); B2R (vs (i + 3)%Z) : R]
       = cub_piece lin a (fun i => B2R (vs i : fl)) (if lin then j else Z.min (Z.max j 0) (d - 2)) X);
    [intros fo lin i sat j vs Hsat;
     replace (P - IZR (i + 1)) with (creg_dtp ROps s w X i) by (unfold creg_dtp, uf, reg_pos; simpl; field; lra);
     rewrite (@reg_rect_inner c fo fo lin sat s w X i) by auto;
     exact (@cub_axis_piece a lin X i sat j (fun i => B2R (vs i)) Ga Hsat c fo)|].
  - (* below *)
    assert (Zn : (z <= 0)%Z) by (assert (z < 1)%Z; [apply lt_IZR; lra|lia]).
    assert (X0 : X <= coord a 0).
    { cbn [coord]. change (IZR 0) with 0. assert (w * P <= w * 0) by (apply Rmult_le_compat_l; lra). lra. }
    destruct (Z.eq_dec z 0) as [Z0|Z0].
    + rewrite Z0 in Ec. replace (Z.min (Z.max (0 - 1) 0) (d - 4)) with 0%Z in Ec by lia. change (0 - 1)%Z with (-1)%Z in Ec.
      assert (Sa : creg_sat d (-1) = InsideLow).
      { unfold creg_sat. change (-1 <? -1)%Z with false. change (-1 =? -1)%Z with true. reflexivity. }
      rewrite Sa in Ec. exists 0%Z, InsideLow. split; [exact Ec|]. intros fo lin vs B st HT B0 HB Hv. cbv zeta.
      rewrite Z0 in L. change (IZR 0) with 0 in L.
      assert (S1 : 1 <= st) by (apply stretch_1; lra). assert (HB1 : 1 * B <= st * B) by (apply Rmult_le_compat_r; lra).
      assert (T1' := Stop lin HT).
      assert (EB : 0 <= E * B) by (apply Rmult_le_pos; lra).
      assert (Pt : Rabs (P - IZR 1) <= 101 / 100) by (apply Rabs_le; lra).
      destruct (position_far 1 (101 / 100) ltac:(lia) ltac:(lra) ltac:(lra) Pt) as (Ft & Et).
      change (reg_dtp o false start h x 1) with (creg_dtp o start h x 0) in *.
      assert (HWe : eta <= eta <= / 2000) by (destruct (eta_small prec emax Hp He U64) as (N1 & _); lra).
      destruct (reg_near prec emax Hp He B E eta U2 HE B0 ltac:(lra) HWe c fo lin InsideLow (creg_dtp o start h x 0) (P - IZR 1)
        (vs 0%Z) (vs (0 + 1)%Z) (vs (0 + 2)%Z) (vs (0 + 3)%Z) Ft ltac:(lra) ltac:(cbn [sat_pos]; lra)) as (F & _ & Er'); try apply Hv.
      split; [exact F|].
      assert (PV' := PV fo lin 0%Z InsideLow 0%Z vs ltac:(cbn; auto)). change (IZR (0 + 1)) with (IZR 1) in PV'. rewrite PV' in Er'.
      assert (Pe : Rabs (cub_piece lin a (fun i => B2R (vs i)) (if lin then 0%Z else Z.min (Z.max 0 0) (d - 2)) X - cub1 lin a X (fun i => B2R (vs i))) <= 72 * E * B).
      { assert (Adm : outer_adm a X (-1)).
        { split; [cbn [npts]; lia|]. split; [left; reflexivity|right; exact X0]. }
        rewrite (@cub1_eq a Ia Na lin X (fun i => B2R (vs i)) _ (outer_adm_cub lin Na Ia Adm)).
        destruct lin.
        - assert (Hf : forall i, (0 <= i < d)%Z -> Rabs (B2R (vs i)) <= B) by (intros i _; apply Hv).
          assert (PN := piece_node prec emax Hp He start h x d Ph Hd true (fun i => B2R (vs i)) B Hf).
          assert (Sm : Rabs (P - IZR 0) <= 6 * E) by (apply Rabs_le; lra).
          assert (N1 := PN 0%Z 0%Z ltac:(unfold cub_lo, cub_hi; cbn [npts]; lia) (or_introl eq_refl) ltac:(lia) ltac:(lra)).
          assert (N2 := PN (-1)%Z 0%Z ltac:(unfold cub_lo, cub_hi; cbn [npts]; lia) (or_intror eq_refl) ltac:(lia) ltac:(lra)).
          assert (N3 : 6 * B * Rabs (P - IZR 0) <= 6 * B * (6 * E)) by (apply Rmult_le_compat_l; lra).
          match type of N1 with Rabs (?p - ?v) <= _ => match type of N2 with Rabs (?p' - _) <= _ =>
            replace (p - p') with ((p - v) + - (p' - v)) by ring end end.
          eapply Rle_trans; [apply abs_add; [exact N1|rewrite Rabs_Ropp; exact N2]|]. lra.
        - cbn [npts]. replace (Z.min (Z.max (-1) 0) (d - 2)) with 0%Z by lia. replace (Z.min (Z.max 0 0) (d - 2)) with 0%Z by lia.
          rewrite Rminus_diag_eq by reflexivity. rewrite Rabs_R0. lra. }
      match type of Er' with Rabs (?r - ?p) <= _ => match type of Pe with Rabs (_ - ?q) <= _ =>
        replace (r - q) with ((r - p) + (p - q)) by ring end end.
      eapply Rle_trans; [apply abs_add; [exact Er'|exact Pe]|].
      assert (1 * (1272 * E * B + 1200 * eta) <= st * (1272 * E * B + 1200 * eta)) by (apply Rmult_le_compat_r; lra). lra.
    + replace (Z.min (Z.max (z - 1) 0) (d - 4)) with 0%Z in Ec by lia.
      assert (Sa : creg_sat d (z - 1) = OutsideLow).
      { unfold creg_sat. replace (z - 1 <? -1)%Z with true by lia. reflexivity. }
      rewrite Sa in Ec. exists 0%Z, OutsideLow. split; [exact Ec|]. intros fo lin vs B st HT B0 HB Hv. cbv zeta.
      assert (S1 : 1 <= st) by (apply stretch_1; lra).
      assert (T1' := Stop lin HT).
      assert (EB : 0 <= E * B) by (apply Rmult_le_pos; lra).
      assert (Pt : Rabs (P - IZR 1) <= 1 + D) by (apply Rabs_le; lra).
      destruct (position_far 1 (1 + D) ltac:(lia) ltac:(lra) ltac:(lra) Pt) as (Ft & Et).
      change (reg_dtp o false start h x 1) with (creg_dtp o start h x 0) in *.
      assert (ED : 0 <= E * D) by (apply Rmult_le_pos; lra).
      destruct (reg_far lin B E (1 + D) U2 HE B0 ltac:(lra) HT HB c fo OutsideLow (creg_dtp o start h x 0) (P - IZR 1)
        (vs 0%Z) (vs (0 + 1)%Z) (vs (0 + 2)%Z) (vs (0 + 3)%Z) Ft ltac:(lra) ltac:(cbn [sat_far]; lra)) as (F & _ & Er'); try apply Hv.
      split; [exact F|].
      assert (PV' := PV fo lin 0%Z OutsideLow (-1)%Z vs ltac:(cbn; auto)). change (IZR (0 + 1)) with (IZR 1) in PV'. rewrite PV' in Er'.
      assert (Adm : outer_adm a X (-1)).
      { split; [cbn [npts]; lia|]. split; [left; reflexivity|right; exact X0]. }
      rewrite (@cub1_eq a Ia Na lin X (fun i => B2R (vs i)) _ (outer_adm_cub lin Na Ia Adm)).
      cbn [npts]. eapply Rle_trans; [exact Er'|].
      fold (cubic_stretch lin D). fold st. assert (0 <= st * (E * B)) by (apply Rmult_le_pos; lra). lra.
  - (* above *)
    rewrite minus_IZR in Hi, O1.
    assert (Zn : (d - 2 <= z)%Z) by (assert (d - 3 < z)%Z; [apply lt_IZR; rewrite minus_IZR; lra|lia]).
    assert (X0 : coord a (npts a - 1) <= X).
    { cbn [coord npts]. rewrite minus_IZR. assert (w * (IZR d - 1) <= w * P) by (apply Rmult_le_compat_l; lra). lra. }
    replace (Z.min (Z.max (z - 1) 0) (d - 4)) with (d - 4)%Z in Ec by lia.
    assert (Adm : outer_adm a X (d - 1)).
    { split; [cbn [npts]; lia|]. split; [right; exact X0|left; reflexivity]. }
    destruct (Z.eq_dec z (d - 2)) as [Z0|Z0].
    + assert (Sa : creg_sat d (z - 1) = InsideHigh).
      { unfold creg_sat. rewrite Z0. replace (d - 2 - 1 <? -1)%Z with false by lia. replace (d - 2 - 1 =? -1)%Z with false by lia.
        replace (d - 3 <? d - 2 - 1)%Z with false by lia. replace (d - 2 - 1 =? d - 3)%Z with true by lia. reflexivity. }
      rewrite Sa in Ec. exists (d - 4)%Z, InsideHigh. split; [exact Ec|]. intros fo lin vs B st HT B0 HB Hv. cbv zeta.
      rewrite Z0, minus_IZR in M.
      assert (S1 : 1 <= st) by (apply stretch_1; lra). assert (HB1 : 1 * B <= st * B) by (apply Rmult_le_compat_r; lra).
      assert (T1' := Stop lin HT).
      assert (EB : 0 <= E * B) by (apply Rmult_le_pos; lra).
      assert (Ed : IZR (d - 4 + 1) = IZR d - 3) by (rewrite plus_IZR, minus_IZR; ring).
      assert (Pt : Rabs (P - IZR (d - 4 + 1)) <= 201 / 100) by (rewrite Ed; apply Rabs_le; lra).
      destruct (position_far (d - 4 + 1) (201 / 100) ltac:(lia) ltac:(lra) ltac:(lra) Pt) as (Ft & Et).
      change (reg_dtp o false start h x (d - 4 + 1)) with (creg_dtp o start h x (d - 4)) in *.
      assert (HWe : eta <= eta <= / 2000) by (destruct (eta_small prec emax Hp He U64) as (N1 & _); lra).
      destruct (reg_near prec emax Hp He B E eta U2 HE B0 ltac:(lra) HWe c fo lin InsideHigh (creg_dtp o start h x (d - 4)) (P - IZR (d - 4 + 1))
        (vs (d - 4)%Z) (vs (d - 4 + 1)%Z) (vs (d - 4 + 2)%Z) (vs (d - 4 + 3)%Z) Ft ltac:(lra) ltac:(cbn [sat_pos]; rewrite Ed; apply Rabs_le; lra)) as (F & _ & Er'); try apply Hv.
      split; [exact F|].
      rewrite (PV fo lin (d - 4)%Z InsideHigh (d - 2)%Z vs ltac:(cbn; auto)) in Er'.
      assert (Pe : Rabs (cub_piece lin a (fun i => B2R (vs i)) (if lin then (d - 2)%Z else Z.min (Z.max (d - 2) 0) (d - 2)) X - cub1 lin a X (fun i => B2R (vs i))) <= 72 * E * B).
      { rewrite (@cub1_eq a Ia Na lin X (fun i => B2R (vs i)) _ (outer_adm_cub lin Na Ia Adm)).
        destruct lin.
        - assert (Hf : forall i, (0 <= i < d)%Z -> Rabs (B2R (vs i)) <= B) by (intros i _; apply Hv).
          assert (PN := piece_node prec emax Hp He start h x d Ph Hd true (fun i => B2R (vs i)) B Hf).
          assert (Sm : Rabs (P - IZR (d - 1)) <= 6 * E) by (rewrite minus_IZR; apply Rabs_le; lra).
          assert (N1 := PN (d - 2)%Z (d - 1)%Z ltac:(unfold cub_lo, cub_hi; cbn [npts]; lia) ltac:(right; lia) ltac:(lia) ltac:(lra)).
          assert (N2 := PN (d - 1)%Z (d - 1)%Z ltac:(unfold cub_lo, cub_hi; cbn [npts]; lia) (or_introl eq_refl) ltac:(lia) ltac:(lra)).
          assert (N3 : 6 * B * Rabs (P - IZR (d - 1)) <= 6 * B * (6 * E)) by (apply Rmult_le_compat_l; lra).
          match type of N1 with Rabs (?p - ?v) <= _ => match type of N2 with Rabs (?p' - _) <= _ =>
            replace (p - p') with ((p - v) + - (p' - v)) by ring end end.
          eapply Rle_trans; [apply abs_add; [exact N1|rewrite Rabs_Ropp; exact N2]|]. lra.
        - cbn [npts]. replace (Z.min (Z.max (d - 1) 0) (d - 2)) with (d - 2)%Z by lia. replace (Z.min (Z.max (d - 2) 0) (d - 2)) with (d - 2)%Z by lia.
          rewrite Rminus_diag_eq by reflexivity. rewrite Rabs_R0. lra. }
      match type of Er' with Rabs (?r - ?p) <= _ => match type of Pe with Rabs (_ - ?q) <= _ =>
        replace (r - q) with ((r - p) + (p - q)) by ring end end.
      eapply Rle_trans; [apply abs_add; [exact Er'|exact Pe]|].
      assert (1 * (1272 * E * B + 1200 * eta) <= st * (1272 * E * B + 1200 * eta)) by (apply Rmult_le_compat_r; lra). lra.
    + assert (Sa : creg_sat d (z - 1) = OutsideHigh).
      { unfold creg_sat. replace (z - 1 <? -1)%Z with false by lia. replace (z - 1 =? -1)%Z with false by lia.
        replace (d - 3 <? z - 1)%Z with true by lia. reflexivity. }
      rewrite Sa in Ec. exists (d - 4)%Z, OutsideHigh. split; [exact Ec|]. intros fo lin vs B st HT B0 HB Hv. cbv zeta.
      assert (S1 : 1 <= st) by (apply stretch_1; lra).
      assert (T1' := Stop lin HT).
      assert (EB : 0 <= E * B) by (apply Rmult_le_pos; lra).
      assert (Ed : IZR (d - 4 + 1) = IZR d - 3) by (rewrite plus_IZR, minus_IZR; ring).
      assert (Pt : Rabs (P - IZR (d - 4 + 1)) <= 2 + D) by (rewrite Ed; apply Rabs_le; lra).
      destruct (position_far (d - 4 + 1) (2 + D) ltac:(lia) ltac:(lra) ltac:(lra) Pt) as (Ft & Et).
      change (reg_dtp o false start h x (d - 4 + 1)) with (creg_dtp o start h x (d - 4)) in *.
      assert (ED : 0 <= E * D) by (apply Rmult_le_pos; lra).
      destruct (reg_far lin B E (1 + D) U2 HE B0 ltac:(lra) HT HB c fo OutsideHigh (creg_dtp o start h x (d - 4)) (P - IZR (d - 4 + 1))
        (vs (d - 4)%Z) (vs (d - 4 + 1)%Z) (vs (d - 4 + 2)%Z) (vs (d - 4 + 3)%Z) Ft ltac:(lra) ltac:(cbn [sat_far]; rewrite Ed; lra)) as (F & _ & Er'); try apply Hv.
      split; [exact F|].
      rewrite (PV fo lin (d - 4)%Z OutsideHigh (d - 1)%Z vs ltac:(cbn; auto)) in Er'.
      rewrite (@cub1_eq a Ia Na lin X (fun i => B2R (vs i)) _ (outer_adm_cub lin Na Ia Adm)).
      cbn [npts]. eapply Rle_trans; [exact Er'|].
      fold (cubic_stretch lin D). fold st. assert (0 <= st * (E * B)) by (apply Rmult_le_pos; lra). lra.
Qed.
End Axis.

(** ** The interpolators *)
Theorem cubic_far_regular c lin dims starts steps vals eval x A kappa D :
  float_cubic_regular Hp He c lin dims starts steps vals eval ->
  axes_within prec emax kappa starts steps dims -> length x = length dims -> point_within prec emax kappa steps x ->
  outside_at_most (reg_axes dims (map B2R starts) (map B2R steps)) (map B2R x) D ->
  let gain := cubic_reach_gain lin 1 D in let sc := cubic_stretch lin D in
  cubic_reach_values prec emax 1 gain (regular_gamma prec kappa) sc (length dims) A vals ->
  2000 * INR (length dims) * (u * kappa) <= 1 -> (prec <= 64)%Z ->
  Forall (good_axis 4) (reg_axes dims (map B2R starts) (map B2R steps)) /\
  exists y, eval x = Ok y /\ fin y /\
  Rabs (B2R y - tenL (ops1 (cub1 lin) (reg_axes dims (map B2R starts) (map B2R steps)) (map B2R x))
                     (entry 0 (map npts (reg_axes dims (map B2R starts) (map B2R steps))) (map B2R vals)))
   <= cubic_reach_error prec emax gain (regular_gamma prec kappa) sc (length dims) A.
Proof.
  intros H Hax Lx Hxk (D0 & Ov) gain sc HVal HN Hprec.
  assert (G1 : 1 <= gain) by (apply reach_gain_1; lra).
  assert (s1 : 1 <= sc) by (apply stretch_1; lra).
  destruct (float_cubic_regular_inv prec emax Hp He _ _ _ _ _ _ _ H) as (W & P & fma & E).
  assert (W' := W). destruct W' as (W0 & W1 & W2 & W3 & W4). cbn [r_dims r_starts r_steps r_vals] in *.
  assert (L1 : length (map (@B2R prec emax) starts) = length dims) by (rewrite map_length; auto).
  assert (L2 : length (map (@B2R prec emax) steps) = length dims) by (rewrite map_length; auto).
  assert (La := reg_axes_length _ _ _ L1 L2). assert (Dm := reg_axes_npts _ _ _ L1 L2).
  rewrite E by auto.
  set (st := fun k => nth k starts (fzero o)). set (sp := fun k => nth k steps (fzero o)).
  set (xx := fun k => nth k x (fzero o)). set (dd := fun k => nth k dims 0%Z).
  assert (N1 : 1 <= INR (length dims)) by (change 1 with (INR 1); apply le_INR; lia).
  assert (U := u_pos prec). assert (Eta := eta_pos prec emax).
  set (axes := reg_axes dims (map B2R starts) (map B2R steps)) in *.
  assert (NA : forall k, (k < length dims)%nat -> nth k axes ax0 = mkAxis (dd k) (fun i => B2R (st k) + B2R (sp k) * IZR i)).
  { intros k Hk. unfold axes. rewrite reg_axes_nth by auto. rewrite !(nth_B2R prec emax Hp He). reflexivity. }
  assert (AX : forall k, (k < length dims)%nat -> fin (st k) /\ fin (sp k) /\ fin (xx k) /\ 0 < B2R (sp k) /\ (4 <= dd k)%Z /\
    Rabs (B2R (st k)) <= kappa * B2R (sp k) /\ Rabs (B2R (st k) + B2R (sp k) * IZR (dd k - 1)) <= kappa * B2R (sp k) /\
    kappa * B2R (sp k) <= bpow radix2 (emax - 3) /\ Rabs (B2R (xx k)) <= kappa * B2R (sp k) /\
    overshoot (mkAxis (dd k) (fun i => B2R (st k) + B2R (sp k) * IZR i)) (B2R (xx k)) <= D).
  { intros k Hk.
    destruct (Hax k (st k) (sp k) (dd k)) as (F0 & F1 & H1 & H2 & H3); try (apply nth_error_nth_some; lia).
    destruct (Hxk k (sp k) (xx k)) as (F2 & H4); try (apply nth_error_nth_some; lia).
    split; [auto|]. split; [auto|]. split; [auto|].
    split. { assert (Q : flt o (fzero o) (sp k) = true) by (apply (Forall_nth_lt (fzero o) P); lia). apply ltb_fin in Q; auto. }
    split; [apply (Forall_nth_lt 0%Z W3 Hk)|]. split; [auto|]. split; [auto|]. split; [auto|]. split; [auto|].
    assert (R := Ov k ltac:(lia)). unfold outside_by in R. change no_axis with ax0 in R.
    rewrite NA, (nth_B2R prec emax Hp He) in R by auto. exact R. }
  assert (Good : Forall (good_axis 4) axes).
  { apply reg_axes_good; auto. rewrite Forall_map. apply Forall_nth. intros k dflt Hk. rewrite (nth_indep _ dflt (fzero o)) by auto.
    apply (AX k). lia. }
  split; [exact Good|].
  assert (K0 : 0 <= u * kappa).
  { apply Rmult_le_pos; [lra|]. destruct (AX 0%nat ltac:(lia)) as (F1 & F2 & F3 & P1 & D1 & B1 & B2 & B3 & R).
    apply Rmult_le_reg_r with (B2R (sp 0%nat)); auto. assert (Q := Rabs_pos (B2R (st 0%nat))). lra. }
  assert (Gm : 0 <= regular_gamma prec kappa) by (unfold regular_gamma, roundoff; lra).
  assert (HT : sc <= bpow radix2 (emax - 8)) by (eapply (reach_values_facts prec emax Hp He); [|exact G1|exact Gm|exact s1|exact HVal]; lra).
  destruct HVal as (A0 & HA & Hv).
  assert (HE : 2000 * (u * kappa) <= 1).
  { assert (1 * (u * kappa) <= INR (length dims) * (u * kappa)) by (apply Rmult_le_compat_r; lra). lra. }
  assert (CE : forall k, (k < length dims)%nat -> exists p, creg_cell o c (st k) (sp k) (dd k) (xx k) = Ok p /\
    forall fo vs B, 0 <= B -> sc * B <= bpow radix2 (emax - 8) -> (forall i, fin (vs i) /\ Rabs (B2R (vs i)) <= B) ->
    let r := reg_innerp o c fo lin (snd p) (creg_dtp o (st k) (sp k) (xx k) (fst p))
      [vs (fst p); vs (fst p + 1)%Z; vs (fst p + 2)%Z; vs (fst p + 3)%Z] in
    fin r /\ Rabs (B2R r - cub1 lin (nth k axes ax0) (B2R (xx k)) (fun i => B2R (vs i))) <= sc * (1272 * (u * kappa) * B + 1200 * eta)).
  { intros k Hk. destruct (AX k Hk) as (F1 & F2 & F3 & P1 & D1 & B1 & B2 & B3 & R & OO).
    destruct (cubic_axis_far (st k) (sp k) (xx k) (dd k) kappa F1 F2 F3 P1 D1 B1 B2 B3 HE R Hprec c D D0 OO) as (i & sat & Ei & Er).
    exists (i, sat). split; [exact Ei|]. rewrite NA by auto. intros fo vs B B0 HB Hvs. exact (Er fo lin vs B HT B0 HB Hvs). }
  destruct (AX 0%nat ltac:(lia)) as (F01 & F02 & F03 & P01 & D01 & B01 & B02 & B03 & R0 & _).
  destruct (facts2 (st 0%nat) (sp 0%nat) (xx 0%nat) (dd 0%nat) kappa F01 F02 F03 P01 D01 B01 B02 B03 HE R0 Hprec) as (U2 & U64 & _).
  destruct (mapM_total _ _ (fun k => creg_cell o c (st k) (sp k) (dd k) (xx k)) (seq 0 (length dims))) as (os & Eos).
  { intros k Hk. apply in_seq in Hk. destruct (CE k ltac:(lia)) as (i & -> & _). eauto. }
  assert (Eos' : creg_cells o c (mkRegular dims starts steps vals) x = Ok os) by exact Eos.
  rewrite Eos'. cbn [bind].
  eexists. split; [reflexivity|].
  assert (Lo := mapM_length _ _ Eos). rewrite seq_length in Lo.
  assert (Lm : length (map B2R x) = length axes) by (rewrite map_length; lia).
  assert (LF := good_cub lin _ Lm Good). rewrite Dm in *.
  assert (Hnd : forall k, (k < length dims)%nat -> nth k (ops1 (cub1 lin) axes (map B2R x)) (fun _ => 0) = cub1 lin (nth k axes ax0) (B2R (xx k))).
  { intros k Hk. rewrite ops1_nth by (rewrite ?map_length; lia). rewrite (nth_B2R prec emax Hp He). reflexivity. }
  assert (ES := eta_stretch prec emax Hp He sc HT).
  assert (NW : INR (length dims) * (sc * (1200 * eta)) <= 1).
  { assert (INR (length dims) * (sc * (1200 * eta)) <= INR (length dims) * (2000 * (u * kappa))) by (apply Rmult_le_compat_l; lra). lra. }
  assert (gs0 : 0 <= regular_gamma prec kappa * sc) by (apply Rmult_le_pos; lra).
  assert (g0 : 0 < gain + regular_gamma prec kappa * sc) by lra.
  destruct (tens4_error prec emax Hp He dims (map fst os) (entry (fzero o) dims vals) (ops1 (cub1 lin) axes (map B2R x))
     (mcr_nd o c fma lin (mkRegular dims starts steps vals) x os) gain (regular_gamma prec kappa * sc) (sc * (1200 * eta)) A (bpow radix2 (emax - 8) / sc))
     with (k := length dims) (suf := @nil Z) as (F & Er & _ & _).
  - exact LF.
  - intros idx. apply (entry_bound prec emax Hp He); auto.
  - exact G1.
  - exact gs0.
  - apply Rmult_le_pos; lra.
  - intros k f M Hk Hf. rewrite Hnd, NA by auto. destruct (AX k Hk) as (F1 & F2 & F3 & P1 & D1 & B1 & B2 & B3 & R & OO).
    assert (M0 : 0 <= M) by (eapply Rle_trans; [apply Rabs_pos|apply (Hf 0%Z)]).
    set (a := mkAxis (dd k) (fun i => B2R (st k) + B2R (sp k) * IZR i)) in *.
    assert (Sp : spacing_ratio_at_most a 1).
    { intros i Hi _. unfold spacing, a. cbn [coord]. rewrite !plus_IZR. lra. }
    eapply Rle_trans; [apply (cub1_norm_any a (@reg_axis_inc _ _ _ P1) D1 1 Sp) with (E := M); intros i _; apply Hf|].
    apply Rmult_le_compat_r; [exact M0|]. apply gain_mono; [lra|]. split; [apply overshoot_nonneg|exact OO].
  - intros k vs B Hk HB Hvs. cbv zeta. rewrite Hnd by auto. unfold mcr_nd. cbn [r_starts r_steps].
    assert (HB' : sc * B <= bpow radix2 (emax - 8)).
    { destruct HB as (_ & HB). apply Rmult_le_compat_l with (r := sc) in HB; [|lra].
      replace (sc * (bpow radix2 (emax - 8) / sc)) with (bpow radix2 (emax - 8)) in HB by (field; lra). exact HB. }
    assert (Ek := @mapM_snoc_nth _ az _ _ _ Eos k Hk). cbv beta in Ek.
    destruct (CE k Hk) as (p & Ep & Er). rewrite Ep in Ek. injection Ek as Ek. rewrite nth_map_fst, <- Ek.
    destruct (Er fma vs B (proj1 HB) HB' Hvs) as (F & Er'). split; [exact F|]. eapply Rle_trans; [exact Er'|].
    unfold regular_gamma, roundoff. lra.
  - apply Rmult_le_reg_r with sc; [lra|].
    replace (bpow radix2 (emax - 8) / sc * sc) with (bpow radix2 (emax - 8)) by (field; lra).
    eapply Rle_trans; [|exact HA]. rewrite Rmult_assoc. apply Rmult_le_compat_l; [left; apply pow_lt; auto|].
    rewrite Rmult_1_l, (Rmult_comm sc (A + 1)). apply Rmult_le_compat_r; lra.
  - lia.
  - split; [exact F|].
    assert (LO : length (ops1 (cub1 lin) axes (map B2R x)) = length dims) by (rewrite ops1_length by auto; lia).
    replace (firstn (length dims) (ops1 (cub1 lin) axes (map B2R x))) with (ops1 (cub1 lin) axes (map B2R x)) in Er by (rewrite <- LO, firstn_all; reflexivity).
    rewrite (tenL_ext _ (fun idx => B2R (entry (fzero o) dims vals (idx ++ []))) LF).
    2:{ intros idx _. rewrite app_nil_r. apply (entry_real prec emax Hp He). }
    unfold cubic_reach_error. rewrite Nat.sub_1_r. eapply Rle_trans; [exact Er|].
    apply Rmult_le_compat_l; [apply Rmult_le_pos; [lra|left; apply pow_lt; auto]|]. unfold underflow.
    replace (regular_gamma prec kappa * sc * A + sc * (1200 * eta)) with (sc * (regular_gamma prec kappa * A + 1200 * eta)) by ring.
    apply Rmult_le_compat_l; lra.
Qed.
End B.
