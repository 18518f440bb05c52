(** Proofs about the IEEE instances: regular-grid cell search, non-finite observations, constant
    data. *)
From Coq Require Import Reals Lra Lia List Bool ZifyBool ZifyNat PeanoNat.
From Flocq Require Import Core.Core Relative IEEE754.BinarySingleNaN.
From Verif Require Import Base Ops FInst ModelCore ModelLinear ModelNearest ModelCubic ModelOneDim Spec SpecOrder SpecIEEE.
From Verif Require Import CoreLemmas TensorLemmas MethodLemmas SearchLemmas MethodChar GenLemmas GenProofs OrderLemmas OrderProofs FLemmas UtilProofs.
Import ListNotations.
Unset Implicit Arguments.
Open Scope R_scope.

Section B.
Variables prec emax : Z.
Context (Hp : Prec_gt_0 prec) (He : Prec_lt_emax prec emax).
Notation fl := (binary_float prec emax).
Notation o := (BOps Hp He).
Notation emin := (3 - emax - prec)%Z.
Notation fin x := (is_finite x = true).
Notation rnd := (rnd prec emax).

(** ** Cell number on a regular axis *)
Lemma pos_step (h : fl) : flt o (fzero o) h = true -> (fin h /\ 0 < B2R h) \/ h = B754_infinity false.
Proof.
  intros H. cbn [flt fzero BOps] in H. apply Bltb_inv in H as [(_ & F & H)|[(_ & ->)|[(E & _)|(E & _)]]]; auto; discriminate.
Qed.

Lemma cell_floor (start h v : fl) i : flt o (fzero o) h = true ->
  to_isize o (ffloor o (fdiv o (fsub o v start) h)) = Some i ->
  fin v /\ fin start /\
  ((h = B754_infinity false /\ i = 0%Z) \/
   (fin h /\ 0 < B2R h /\ fin (fsub o v start) /\ i = Zfloor (rnd (rnd (B2R v - B2R start) / B2R h)))).
Proof.
  intros Hh H. apply to_isize_floor in H as (F & E & _).
  assert (Fd := div_fin _ _ _ _ F). destruct (sub_fin _ _ _ _ Fd) as (Fv & Fs).
  split; [auto|]. split; [auto|].
  destruct (sub_spec Hp He v start Fv Fs) as [(_ & Vd)|(C & _)]; [|rewrite C in Fd; discriminate].
  destruct (@pos_step h Hh) as [(Fh & Ph)|Eh].
  - right. repeat split; auto. subst i. f_equal.
    destruct (div_spec Hp He (fsub o v start) h Fd ltac:(lra)) as [(_ & V)|(C & _)]; [|rewrite C in F; discriminate].
    rewrite V, Vd. reflexivity.
  - left. split; auto. subst i h. replace (B2R _) with 0; [apply (Zfloor_IZR 0)|].
    cbn [fdiv BOps]. destruct (fsub o v start) as [| | |]; try discriminate; reflexivity.
Qed.

Lemma div_le_compat a b h : 0 < h -> a <= b -> a / h <= b / h.
Proof. intros. unfold Rdiv. apply Rmult_le_compat_r; auto. left. apply Rinv_0_lt_compat; auto. Qed.

Lemma cell_monotone (start h a b : fl) i j : flt o (fzero o) h = true -> fle o a b = true ->
  to_isize o (ffloor o (fdiv o (fsub o a start) h)) = Some i ->
  to_isize o (ffloor o (fdiv o (fsub o b start) h)) = Some j -> (i <= j)%Z.
Proof.
  intros Hh Hab Ha Hb.
  apply cell_floor in Ha as (Fa & _ & Ca); auto. apply cell_floor in Hb as (Fb & _ & Cb); auto.
  apply leb_fin in Hab; auto.
  destruct Ca as [(Ea & ->)|(Fh & Ph & _ & ->)], Cb as [(Eb & ->)|(Fh' & _ & _ & ->)]; try lia;
    try (subst h; discriminate).
  apply Zfloor_le. apply rnd_le; auto. apply div_le_compat; auto. apply rnd_le; auto. lra.
Qed.

Theorem C40_proof_one_dim c start h vals g a b i ei j ej : (2 <= zlen vals <= isize_max)%Z ->
  flt o (fzero o) h = true -> r1_new o c start h vals = Ok g -> fle o a b = true ->
  r1_index o c g a = Ok (i, ei) -> r1_index o c g b = Ok (j, ej) -> (i <= j)%Z.
Proof.
  intros Hn Hh Hg Hab Ha Hb. unfold r1_new in Hg.
  apply bind_ok in Hg as (m & _ & Hg). apply bind_ok in Hg as (mf & _ & Hg). inversion Hg; subst g; clear Hg.
  unfold r1_index in Ha, Hb. cbn [r1_start r1_step r1_vals] in *.
  destruct (to_isize o (ffloor o (fdiv o (fsub o a start) h))) as [p|] eqn:Ep; cbn [ok_or bind] in Ha; [|discriminate].
  destruct (to_isize o (ffloor o (fdiv o (fsub o b start) h))) as [q|] eqn:Eq; cbn [ok_or bind] in Hb; [|discriminate].
  rewrite usize_sub_ok in Ha, Hb by (unfold isize_max, two64 in *; lia). cbn [bind] in Ha, Hb.
  assert (L := @cell_monotone start h a b p q Hh Hab Ep Eq).
  rewrite as_isize_small in Ha, Hb by lia.
  inversion Ha; inversion Hb; subst. unfold as_usize. rewrite !Z.mod_small by (unfold isize_max, two64 in *; lia). lia.
Qed.

Lemma reg_cell_monotone start h d a b i j : flt o (fzero o) h = true -> fle o a b = true ->
  reg_cell o start h d a = Ok i -> reg_cell o start h d b = Ok j -> (i <= j)%Z.
Proof.
  intros Hh Hab Ha Hb. unfold reg_cell in *.
  destruct (to_isize o (ffloor o (fdiv o (fsub o a start) h))) as [p|] eqn:Ep; cbn [ok_or bind] in Ha; [|discriminate].
  destruct (to_isize o (ffloor o (fdiv o (fsub o b start) h))) as [q|] eqn:Eq; cbn [ok_or bind] in Hb; [|discriminate].
  assert (L := @cell_monotone start h a b p q Hh Hab Ep Eq). inversion Ha; inversion Hb. lia.
Qed.

Ltac inv_new H :=
  apply bind_ok in H as (nv & Hnv & H);
  repeat match type of H with
  | (if ?b then _ else _) = Ok _ => let E := fresh "E" in destruct b eqn:E; try discriminate H
  end.
Ltac pos_of steps := apply Forall_forall; let h := fresh in let Hh := fresh in intros h Hh;
  match goal with E : negb (forallb _ steps) = false |- _ =>
    apply negb_false_iff in E; rewrite forallb_forall in E; apply E; auto end.

Lemma mlr_steps_pos c dims starts steps vals s : mlr_new o c dims starts steps vals = Ok s ->
  Forall (fun h => flt o (fzero o) h = true) steps.
Proof. intros H. unfold mlr_new in H. inv_new H. pos_of steps. Qed.
Lemma mlrr_steps_pos c m dims starts steps vals s : mlrr_new o c m dims starts steps vals = Ok s ->
  Forall (fun h => flt o (fzero o) h = true) steps.
Proof. intros H. unfold mlrr_new in H. inv_new H. pos_of steps. Qed.
Lemma mcr_steps_pos c dims starts steps vals lin s : mcr_new o c dims starts steps vals lin = Ok s ->
  Forall (fun h => flt o (fzero o) h = true) steps.
Proof. intros H. unfold mcr_new in H. inv_new H. pos_of steps. Qed.
Lemma mcrr_steps_pos c m dims starts steps vals lin s : mcrr_new o c m dims starts steps vals lin = Ok s ->
  Forall (fun h => flt o (fzero o) h = true) steps.
Proof. intros H. unfold mcrr_new in H. inv_new H. pos_of steps. Qed.

(** C40 on N-dimensional grids: linear (both) and nearest *)
Lemma wf_monotone (s : regular fl) k a b i j : reg_wf 2 s ->
  Forall (fun h => flt o (fzero o) h = true) (r_steps s) -> (k < length (r_dims s))%nat -> fle o a b = true ->
  reg_get_loc o s a k = Ok i -> reg_get_loc o s b k = Ok j -> (i <= j)%Z.
Proof.
  intros W P Hk Hab. rewrite !reg_get_loc_eq by auto. apply reg_cell_monotone; auto.
  destruct W as (_ & _ & L & _). apply (Forall_nth_lt (fzero o) P). lia.
Qed.

Theorem C40_proof_linear c dims starts steps vals s k a b i j :
  reg_input c dims starts steps vals -> mlr_new o c dims starts steps vals = Ok s ->
  (k < length dims)%nat -> fle o a b = true ->
  reg_get_loc o s a k = Ok i -> reg_get_loc o s b k = Ok j -> (i <= j)%Z.
Proof.
  intros Hi H Hk Hab. assert (P := mlr_steps_pos _ _ _ _ _ _ H).
  destruct (mlr_new_inv _ Hi H) as (W & ->). eapply wf_monotone; eauto.
Qed.
Theorem C40_proof_linear_recursive c m dims starts steps vals s k a b i j :
  reg_input c dims starts steps vals -> mlrr_new o c m dims starts steps vals = Ok s ->
  (k < length dims)%nat -> fle o a b = true ->
  reg_get_loc o s a k = Ok i -> reg_get_loc o s b k = Ok j -> (i <= j)%Z.
Proof.
  intros Hi H Hk Hab. assert (P := mlrr_steps_pos _ _ _ _ _ _ _ H).
  destruct (mlrr_new_inv _ _ Hi H) as (W & -> & _). eapply wf_monotone; eauto.
Qed.

(** Cubic: the footprint and the saturation class, unless the cell number is the smallest isize. *)
Lemma creg_cell_monotone c start h d a b i sa j sb : (4 <= d)%Z -> flt o (fzero o) h = true -> fle o a b = true ->
  (ovf_checks c = true \/ to_isize o (ffloor o (fdiv o (fsub o a start) h)) <> Some isize_min) ->
  creg_cell o c start h d a = Ok (i, sa) -> creg_cell o c start h d b = Ok (j, sb) ->
  (i <= j)%Z /\ (sat_rank sa <= sat_rank sb)%Z.
Proof.
  intros Hd Hh Hab Hov Ha Hb. unfold creg_cell in *.
  destruct (to_isize o (ffloor o (fdiv o (fsub o a start) h))) as [p|] eqn:Ep; cbn [ok_or bind] in Ha; [|discriminate].
  destruct (to_isize o (ffloor o (fdiv o (fsub o b start) h))) as [q|] eqn:Eq; cbn [ok_or bind] in Hb; [|discriminate].
  assert (L := cell_monotone start h a b p q Hh Hab Ep Eq).
  apply to_isize_floor in Ep as (_ & _ & Rp). apply to_isize_floor in Eq as (_ & _ & Rq).
  assert (p <> isize_min).
  { destruct Hov as [Hc|Hn]; [|congruence]. intros ->. unfold isize_sub, isize_res in Ha. rewrite Hc in Ha.
    destruct ((isize_min <=? isize_min - 1)%Z && (isize_min - 1 <=? isize_max)%Z) eqn:E; [lia|discriminate]. }
  rewrite isize_sub_ok in Ha, Hb by (unfold isize_min, isize_max in *; lia). cbn [bind] in Ha, Hb.
  inversion Ha; inversion Hb; subst. split; [lia|]. unfold creg_sat.
  repeat match goal with |- context[if ?x then _ else _] => let E := fresh "E" in destruct x eqn:E end; simpl; lia.
Qed.
Theorem C44_proof c dims starts steps vals lin s k a b i sa j sb :
  reg_input c dims starts steps vals -> mcr_new o c dims starts steps vals lin = Ok s ->
  (k < length dims)%nat -> fle o a b = true ->
  (ovf_checks c = true \/ to_isize o (ffloor o (fdiv o (fsub o a (nth k starts (fzero o))) (nth k steps (fzero o)))) <> Some isize_min) ->
  creg_get_loc o c (cr_base s) a k = Ok (i, sa) -> creg_get_loc o c (cr_base s) b k = Ok (j, sb) ->
  (i <= j)%Z /\ (sat_rank sa <= sat_rank sb)%Z.
Proof.
  intros Hi H Hk Hab Hov. assert (P := mcr_steps_pos _ _ _ _ _ _ _ H).
  destruct (mcr_new_inv _ _ Hi H) as (W & ->). cbn [cr_base] in *. rewrite !creg_get_loc_eq by auto.
  destruct W as (_ & _ & L & D & _). cbn [r_dims r_starts r_steps] in *. apply creg_cell_monotone; auto.
  - apply (Forall_nth_lt 0%Z D); auto.
  - apply (Forall_nth_lt (fzero o) P). lia.
Qed.
Theorem C44_proof_recursive c m dims starts steps vals lin s k a b i sa j sb :
  reg_input c dims starts steps vals -> mcrr_new o c m dims starts steps vals lin = Ok s ->
  (k < length dims)%nat -> fle o a b = true ->
  (ovf_checks c = true \/ to_isize o (ffloor o (fdiv o (fsub o a (nth k starts (fzero o))) (nth k steps (fzero o)))) <> Some isize_min) ->
  creg_get_loc o c (cr_base s) a k = Ok (i, sa) -> creg_get_loc o c (cr_base s) b k = Ok (j, sb) ->
  (i <= j)%Z /\ (sat_rank sa <= sat_rank sb)%Z.
Proof.
  intros Hi H Hk Hab Hov. assert (P := mcrr_steps_pos _ _ _ _ _ _ _ _ H).
  destruct (mcrr_new_inv _ _ _ Hi H) as (W & -> & _). cbn [cr_base] in *. rewrite !creg_get_loc_eq by auto.
  destruct W as (_ & _ & L & D & _). cbn [r_dims r_starts r_steps] in *. apply creg_cell_monotone; auto.
  - apply (Forall_nth_lt 0%Z D); auto.
  - apply (Forall_nth_lt (fzero o) P). lia.
Qed.

(** ** C30: hold-last on a regular grid *)
Lemma bpow_pred_half e : / 2 * bpow radix2 (e + 1) = bpow radix2 e.
Proof. rewrite bpow_plus_1. simpl (IZR radix2). field. Qed.

Lemma fl_pos_min (h : fl) : fin h -> 0 < B2R h -> bpow radix2 emin <= B2R h.
Proof.
  intros Fh Ph. rewrite <- (Rabs_pos_eq (B2R h)) by lra. apply abs_B2R_ge_emin.
  destruct h; try discriminate; simpl in *; auto; lra.
Qed.

Lemma product_above (h : fl) m : fin h -> 0 < B2R h -> (1 <= m <= 2 ^ prec)%Z ->
  B2R h * (IZR m - 1) <= rnd (B2R h * IZR m).
Proof.
  intros Fh Ph Hm. destruct (@rnd_error prec emax Hp (B2R h * IZR m)) as (eps & eta & He1 & He2 & H0 & E).
  rewrite bpow_pred_half in He1. assert (Hmin := fl_pos_min h Fh Ph).
  assert (Hm1 : 1 <= IZR m) by (apply (IZR_le 1); lia).
  assert (Hm2 : IZR m <= bpow radix2 prec).
  { rewrite <- IZR_Zpower by (unfold Prec_gt_0 in Hp; lia). apply IZR_le. simpl. lia. }
  assert (Hb : bpow radix2 prec * bpow radix2 (- prec) = 1) by (rewrite <- bpow_plus, Z.add_opp_diag_r; reflexivity).
  assert (B0 := bpow_gt_0 radix2 (- prec)). assert (B1 := bpow_gt_0 radix2 emin).
  rewrite E. apply Rabs_le_inv in He1. apply Rabs_le_inv in He2.
  assert (IZR m * bpow radix2 (- prec) <= 1).
  { rewrite <- Hb. apply Rmult_le_compat_r; lra. }
  destruct (Rmult_integral _ _ H0) as [-> | ->].
  - nra.
  - assert (- (1) <= IZR m * eps) by nra. nra.
Qed.

Lemma izr_fl m : (Z.abs m <= 2 ^ prec)%Z -> (0 <= m)%Z -> rnd (IZR m) = IZR m.
Proof.
  intros Hm H0. destruct (@of_usize_some prec emax Hp He m) as (v & Ev).
  destruct (@of_usize_spec prec emax Hp He m v Ev Hm) as (_ & <-). apply rnd_id.
Qed.

Lemma stop_ge (start h m : fl) : fin start -> fin h -> fin m -> 0 <= B2R h -> 0 <= B2R m ->
  fle o start (fadd o start (fmul o h m)) = true.
Proof.
  intros Fs Fh Fm H0 M0. assert (P0 : 0 <= B2R h * B2R m) by (apply Rmult_le_pos; auto).
  destruct (mul_rounds Hp He h m Fh Fm) as [(F & V)|[(F & V)|(F & V)]].
  - assert (A := add_rounds Hp He start (fmul o h m) Fs F).
    assert (0 <= B2R (fmul o h m)) by (rewrite V; apply rnd_nonneg; auto).
    apply (@rounds_ge prec emax Hp He _ _ start A Fs). lra.
  - rewrite F. destruct start; try discriminate; reflexivity.
  - exfalso. assert (B := bpow_gt_0 radix2 emax). assert (A := @rnd_nonneg prec emax Hp _ P0). lra.
Qed.

Theorem C30_proof_ieee c start h vals g x d : fin start -> fin h -> 0 < B2R h ->
  (2 <= zlen vals <= isize_max)%Z -> (zlen vals - 1 <= 2 ^ prec)%Z ->
  r1_new o c start h vals = Ok g ->
  (flt o x start = true ->
     hold_last1 o c (r1_at o c g) x = Ok (nth 0 vals d) \/ hold_last1 o c (r1_at o c g) x = Err msg_num) /\
  (forall m, of_usize o (zlen vals - 1) = Some m -> flt o (fadd o start (fmul o h m)) x = true ->
     hold_last1 o c (r1_at o c g) x = Ok (last vals d) \/ hold_last1 o c (r1_at o c g) x = Err msg_num).
Proof.
  intros Fs Fh Ph Hn Hp2 Hg.
  assert (Hh : flt o (fzero o) h = true) by (apply ltb_fin; auto; reflexivity).
  unfold r1_new in Hg. rewrite usize_sub_ok in Hg by (unfold isize_max, two64 in *; lia). cbn [bind] in Hg.
  destruct (@of_usize_some prec emax Hp He (zlen vals - 1)) as (mf & Em). rewrite Em in Hg. cbn [ok_or bind] in Hg.
  destruct (@of_usize_spec prec emax Hp He _ mf Em ltac:(lia)) as (Fm & Vm).
  assert (Eg : g = mkR1 start (fadd o start (fmul o h mf)) h vals) by congruence. subst g. clear Hg.
  assert (Lv : Z.of_nat (length vals) = zlen vals) by reflexivity.
  assert (SG : fle o start (fadd o start (fmul o h mf)) = true).
  { apply stop_ge; auto; [lra|rewrite Vm; apply (IZR_le 0); lia]. }
  (* the sample at a given cell *)
  assert (S : forall i ex, (0 <= i <= zlen vals - 2)%Z ->
    r1_index o c (mkR1 start (fadd o start (fmul o h mf)) h vals) x = Ok (i, ex) ->
    exists smp, r1_at o c (mkR1 start (fadd o start (fmul o h mf)) h vals) x = Ok smp /\
      sextrap smp = ex /\ sy0 smp = nth (Z.to_nat i) vals d /\ sy1 smp = nth (Z.to_nat (i + 1)) vals d).
  { intros i ex Hi E. unfold r1_at. rewrite E. cbn [bind].
    destruct (@of_usize_some prec emax Hp He i) as (fi & Ei). rewrite Ei. cbn [ok_or bind r1_start r1_step r1_vals].
    rewrite (idx_nth _ d) by lia. cbn [bind].
    rewrite usize_add_ok by (unfold isize_max, two64 in *; lia). cbn [bind].
    rewrite (idx_nth _ d) by lia. cbn [bind]. eexists. split; [reflexivity|]. auto. }
  assert (I : r1_index o c (mkR1 start (fadd o start (fmul o h mf)) h vals) x =
    match to_isize o (ffloor o (fdiv o (fsub o x start) h)) with
    | Some q => Ok (Z.min (Z.max q 0) (zlen vals - 2),
        if flt o (fadd o start (fmul o h mf)) x then ExtrapHigh else if flt o x start then ExtrapLow else Inside)
    | None => Err msg_num end).
  { unfold r1_index. cbn [r1_start r1_step r1_stop r1_vals].
    destruct (to_isize _ _) as [q|]; cbn [ok_or bind]; auto.
    rewrite usize_sub_ok by (unfold isize_max, two64 in *; lia). cbn [bind].
    rewrite as_isize_small by lia. unfold as_usize. rewrite Z.mod_small by (unfold isize_max, two64 in *; lia). reflexivity. }
  destruct (to_isize o (ffloor o (fdiv o (fsub o x start) h))) as [q|] eqn:Eq.
  2:{ assert (hold_last1 o c (r1_at o c (mkR1 start (fadd o start (fmul o h mf)) h vals)) x = Err msg_num).
      { unfold hold_last1, r1_at. rewrite I. reflexivity. }
      split; intros; right; auto. }
  destruct (cell_floor start h x q Hh Eq) as (Fx & _ & [(-> & _)|(_ & _ & Fd & Vq)]); [discriminate|].
  split.
  - intros Hx. left. assert (Hx' := Hx). apply ltb_fin in Hx'; auto.
    assert (q <= 0)%Z.
    { rewrite Vq. replace 0%Z with (Zfloor 0) by apply (Zfloor_IZR 0). apply Zfloor_le.
      apply rnd_nonpos; auto. assert (A := @rnd_nonpos prec emax Hp (B2R x - B2R start) ltac:(lra)).
      assert (B := div_le_compat _ _ (B2R h) Ph A). unfold Rdiv in B at 2. rewrite Rmult_0_l in B. exact B. }
    rewrite Z.max_r, Z.min_l in I by lia.
    destruct (S 0%Z _ ltac:(lia) I) as (smp & E & Ex & Y0 & _). unfold hold_last1. rewrite E. cbn [bind]. rewrite Ex.
    destruct (flt o (fadd o start (fmul o h mf)) x) eqn:Eh.
    + exfalso. assert (C : flt o (fadd o start (fmul o h mf)) start = true) by (eapply BOps_transitive; eauto).
      destruct (Bltb_inv _ _ C) as [(F1 & _ & L1)|[(_ & L1)|[(L1 & _)|(L1 & _)]]].
      * apply leb_fin in SG; auto. lra.
      * subst start; discriminate.
      * rewrite L1 in SG. destruct start; discriminate.
      * rewrite L1 in SG. destruct start; discriminate.
    + rewrite Hx. rewrite Y0. reflexivity.
  - intros m Em' Hx. rewrite Em in Em'. inversion Em'; subst m; clear Em'. left.
    rewrite Hx in I.
    assert (zlen vals - 2 <= q)%Z.
    { destruct (Bltb_inv _ _ Hx) as [(F1 & _ & L1)|[(_ & L1)|[(L1 & _)|(L1 & _)]]];
        [|subst x; discriminate| |].
      2,3: exfalso.
      - assert (F2 : fin (fmul o h mf)) by (apply add_fin in F1; tauto).
        destruct (mul_spec Hp He h mf Fh Fm) as [(_ & Vp)|(C & _)]; [|rewrite C in F2; discriminate].
        destruct (add_spec Hp He start (fmul o h mf) Fs F2) as [(_ & Vs)|(C & _)]; [|rewrite C in F1; discriminate].
        assert (A : B2R (fmul o h mf) <= B2R x - B2R start).
        { destruct (Rle_or_lt (B2R (fmul o h mf)) (B2R x - B2R start)) as [|C]; auto. exfalso.
          assert (B := @rnd_ge_fl prec emax Hp (B2R start + B2R (fmul o h mf)) x ltac:(lra)). lra. }
        assert (A2 := @rnd_ge_fl prec emax Hp _ _ A). rewrite Vp, Vm in A2.
        assert (A3 := product_above h (zlen vals - 1) Fh Ph ltac:(lia)).
        rewrite Vq. replace (zlen vals - 2)%Z with (Zfloor (IZR (zlen vals - 2))) by apply Zfloor_IZR.
        apply Zfloor_le. rewrite <- (izr_fl (zlen vals - 2)) by lia. apply rnd_le; auto.
        apply Rmult_le_reg_r with (B2R h); auto. unfold Rdiv. rewrite Rmult_assoc, Rinv_l, Rmult_1_r by lra.
        replace (IZR (zlen vals - 2)) with (IZR (zlen vals - 1) - 1) by (rewrite !minus_IZR; lra). lra.
      - rewrite L1 in SG. destruct start; discriminate.
      - rewrite L1 in SG. destruct start; discriminate. }
    rewrite Z.max_l, Z.min_r in I by lia.
    destruct (S (zlen vals - 2)%Z _ ltac:(lia) I) as (smp & E & Ex & _ & Y1). unfold hold_last1. rewrite E. cbn [bind]. rewrite Ex, Y1.
    f_equal. rewrite last_nth. f_equal. lia.
Qed.

(** ** Invariants of tensor evaluation *)
Lemma tens_inv FP V nd origin dims (P : nat -> fl -> Prop) :
  foot_in FP dims origin ->
  (forall s, in_shape dims s -> P 0%nat (V s)) ->
  (forall k vs, (k < length dims)%nat -> length vs = FP -> Forall (P k) vs -> P (S k) (nd k vs)) ->
  P (length dims) (tens FP V nd origin (length dims) []).
Proof.
  intros Hf H0 HS. assert (L := foot_in_length Hf). rewrite L.
  assert (G : forall k suf, (k <= length origin)%nat -> in_foot FP origin k suf -> P k (tens FP V nd origin k suf)).
  { induction k as [|k IH]; intros suf Hk Hs; simpl.
    - apply H0. eapply foot_in_shape; eauto.
    - apply HS; [lia|rewrite map_length, seq_length; reflexivity|]. apply Forall_forall. intros v Hv.
      apply in_map_iff in Hv as (i & <- & Hi). apply in_seq in Hi. apply IH; [lia|].
      apply in_foot_cons; auto; lia. }
  apply G; [lia|]. apply in_foot_nil.
Qed.

Lemma entry_in (d : fl) dims vals idx : vals_wf dims vals -> in_shape dims idx -> In (entry d dims vals idx) vals.
Proof.
  intros (H1 & H2) Hs. assert (R := @cindex_range _ _ Hs). unfold entry. apply nth_In. unfold zlen in *. lia.
Qed.

(** ** The evaluators as tensor formulas *)
Lemma float_rectilinear_inv c grids vals eval : float_rectilinear Hp He c grids vals eval ->
  rect_wf 2 (mkRect grids (map zlen grids) vals) /\
  forall x, length x = length grids -> eval x = Ok (mlc_value o c (mkRect grids (map zlen grids) vals) x).
Proof.
  intros [s Hi H|m s Hi H].
  - destruct (mlc_new_inv _ Hi H) as (W & ->). split; auto. intros x Lx. apply mlc_char; auto.
  - destruct (mlcr_new_inv _ _ Hi H) as (W & -> & Hm). split; auto. intros x Lx. apply mlcr_char; auto.
Qed.

Definition mlr_value (fma : bool) c (s : regular fl) (x : list fl) (os : list Z) : fl :=
  tens 2 (entry (fzero o) (r_dims s) (r_vals s))
    (fun k => lin_nd o c (reg_dtp o fma (nth k (r_starts s) (fzero o)) (nth k (r_steps s) (fzero o)) (nth k x (fzero o)) (nth k os 0%Z)))
    os (length (r_dims s)) [].

Lemma float_regular_inv c dims starts steps vals eval : float_regular Hp He c dims starts steps vals eval ->
  reg_wf 2 (mkRegular dims starts steps vals) /\ Forall (fun h => flt o (fzero o) h = true) steps /\
  exists fma, forall x, length x = length dims ->
  eval x = do os <- reg_cells o (mkRegular dims starts steps vals) x ;
           Ok (mlr_value fma c (mkRegular dims starts steps vals) x os).
Proof.
  intros [s Hi H|m s Hi H].
  - assert (P := mlr_steps_pos _ _ _ _ _ _ H). destruct (mlr_new_inv _ Hi H) as (W & ->). split; [auto|]. split; [auto|].
    exists (use_fma c). intros x Lx. apply mlr_char; auto. apply usize_converts_B.
  - assert (P := mlrr_steps_pos _ _ _ _ _ _ _ H). destruct (mlrr_new_inv _ _ Hi H) as (W & -> & Hm). split; [auto|]. split; [auto|].
    exists false. intros x Lx. apply mlrr_char; auto. apply usize_converts_B.
Qed.

(** ** C33: observations that are not finite *)
Lemma mapM_err A B (f : A -> outcome B) e l a : (forall b, In b l -> (exists v, f b = Ok v) \/ f b = Err e) ->
  In a l -> f a = Err e -> mapM f l = Err e.
Proof.
  induction l as [|b l IH]; intros H Ha E; [destruct Ha|]. cbn [mapM].
  destruct (H b (or_introl eq_refl)) as [(v & Eb)|Eb]; rewrite Eb; cbn [bind]; auto.
  destruct Ha as [-> |Ha]; [congruence|]. rewrite IH; auto. intros b' Hb'. apply H. right; auto.
Qed.

Lemma not_finite_cell (start h v : fl) : is_finite v = false ->
  to_isize o (ffloor o (fdiv o (fsub o v start) h)) = None.
Proof.
  intros Fv. destruct (to_isize _ _) as [i|] eqn:E; auto. exfalso.
  apply to_isize_floor in E as (F & _). apply div_fin in F. apply sub_fin in F. destruct F. congruence.
Qed.

Lemma not_finite_cells (s : regular fl) x k : (k < length (r_dims s))%nat ->
  is_finite (nth k x (fzero o)) = false -> reg_cells o s x = Err msg_repr.
Proof.
  intros Hk Fx. unfold reg_cells. eapply mapM_err with (a := k).
  - intros j _. unfold reg_cell. destruct (to_isize _ _); cbn [ok_or bind]; eauto.
  - apply in_seq. lia.
  - unfold reg_cell. rewrite not_finite_cell by auto. reflexivity.
Qed.

Theorem C33_proof_regular c dims starts steps vals eval x v : float_regular Hp He c dims starts steps vals eval ->
  length x = length dims -> In v x -> is_finite v = false -> eval x = Err msg_repr.
Proof.
  intros H Lx Hv Fv. destruct (float_regular_inv _ _ _ _ _ _ H) as (_ & _ & fma & E). rewrite E by auto.
  destruct (In_nth _ _ (fzero o) Hv) as (k & Hk & Ek).
  rewrite (not_finite_cells _ x k); [reflexivity|simpl; lia|congruence].
Qed.
Theorem C33_proof_nearest_regular c dims starts steps vals s x v : reg_input c dims starts steps vals ->
  nr_new o c dims starts steps vals = Ok s ->
  length x = length dims -> In v x -> is_finite v = false -> nr_interp_one o c s x = Err msg_repr.
Proof.
  intros Hi H Lx Hv Fv. destruct (mlr_new_inv _ Hi H) as (W & ->). rewrite nr_char; auto; [|apply usize_converts_B].
  destruct (In_nth _ _ (fzero o) Hv) as (k & Hk & Ek).
  rewrite (not_finite_cells _ x k); [reflexivity|simpl; lia|congruence].
Qed.
Lemma not_finite_cubic c (s : regular fl) x k : (k < length (r_dims s))%nat ->
  is_finite (nth k x (fzero o)) = false ->
  creg_cells o c s x = Err msg_repr \/ (ovf_checks c = true /\ creg_cells o c s x = Panic).
Proof.
  intros Hk Fx. unfold creg_cells.
  assert (Hin : In k (seq 0 (length (r_dims s)))) by (apply in_seq; lia).
  revert Hin. generalize (seq 0 (length (r_dims s))). induction l as [|j l IH]; intros Hin; [destruct Hin|].
  cbn [mapM]. unfold creg_cell at 1 3. destruct (to_isize _ _) as [i|] eqn:Ei; cbn [ok_or bind]; auto.
  unfold isize_sub, isize_res.
  assert (j <> k).
  { intros ->. rewrite not_finite_cell in Ei by auto. discriminate. }
  destruct Hin as [|Hin]; [congruence|]. specialize (IH Hin).
  destruct (_ && _); cbn [bind].
  - destruct IH as [-> |(? & ->)]; auto.
  - destruct (ovf_checks c) eqn:Ec; cbn [bind]; auto.
    destruct IH as [-> |(? & ->)]; auto.
Qed.
Theorem C33_proof_cubic_regular c dims starts steps vals lin s x v : reg_input c dims starts steps vals ->
  mcr_new o c dims starts steps vals lin = Ok s ->
  length x = length dims -> In v x -> is_finite v = false ->
  mcr_interp_one o c s x = Err msg_repr \/ (ovf_checks c = true /\ mcr_interp_one o c s x = Panic).
Proof.
  intros Hi H Lx Hv Fv. destruct (mcr_new_inv _ _ Hi H) as (W & ->). rewrite mcr_char; auto; [|apply usize_converts_B].
  destruct (In_nth _ _ (fzero o) Hv) as (k & Hk & Ek). cbn [cr_base] in *.
  destruct (not_finite_cubic c (mkRegular dims starts steps vals) x k) as [E|(Ec & E)];
    [simpl; lia|congruence| |]; rewrite E; auto.
Qed.
Theorem C33_proof_cubic_regular_recursive c m dims starts steps vals lin s x v : reg_input c dims starts steps vals ->
  mcrr_new o c m dims starts steps vals lin = Ok s ->
  length x = length dims -> In v x -> is_finite v = false ->
  mcrr_interp_one o c m s x = Err msg_repr \/ (ovf_checks c = true /\ mcrr_interp_one o c m s x = Panic).
Proof.
  intros Hi H Lx Hv Fv. destruct (mcrr_new_inv _ _ _ Hi H) as (W & -> & Hm). rewrite mcrr_char; auto; [|apply usize_converts_B].
  destruct (In_nth _ _ (fzero o) Hv) as (k & Hk & Ek). cbn [cr_base] in *.
  destruct (not_finite_cubic c (mkRegular dims starts steps vals) x k) as [E|(Ec & E)];
    [simpl; lia|congruence| |]; rewrite E; auto.
Qed.
Theorem C33_proof_one_dim c start h vals g x : r1_new o c start h vals = Ok g -> is_finite x = false ->
  r1_at o c g x = Err msg_num.
Proof.
  intros Hg Fx. unfold r1_new in Hg.
  apply bind_ok in Hg as (m & _ & Hg). apply bind_ok in Hg as (mf & _ & Hg). inversion Hg; subst g.
  unfold r1_at, r1_index. cbn [r1_start r1_step]. rewrite not_finite_cell by auto. reflexivity.
Qed.

(** NaN on a rectilinear grid. *)
Notation nan := (B754_nan : fl).
Lemma nan_add_l a : fadd o nan a = nan. Proof. destruct a; reflexivity. Qed.
Lemma nan_add_r a : fadd o a nan = nan. Proof. destruct a; reflexivity. Qed.
Lemma nan_sub_l a : fsub o nan a = nan. Proof. destruct a; reflexivity. Qed.
Lemma nan_sub_r a : fsub o a nan = nan. Proof. destruct a; reflexivity. Qed.
Lemma nan_mul_l a : fmul o nan a = nan. Proof. destruct a; reflexivity. Qed.
Lemma nan_mul_r a : fmul o a nan = nan. Proof. destruct a; reflexivity. Qed.
Lemma nan_div_l a : fdiv o nan a = nan. Proof. destruct a; reflexivity. Qed.
Lemma nan_neg : fneg o nan = nan. Proof. reflexivity. Qed.
Lemma nan_fma_1 a b : fmuladd o nan a b = nan. Proof. destruct a, b; reflexivity. Qed.
Lemma nan_fma_2 a b : fmuladd o a nan b = nan. Proof. destruct a, b; reflexivity. Qed.
Lemma nan_fma_3 a b : fmuladd o a b nan = nan.
Proof. cbn [fmuladd BOps]. unfold Bfma. destruct a as [[]|[]| |[]], b as [[]|[]| |[]]; reflexivity. Qed.
Ltac nan := repeat first [rewrite nan_add_l | rewrite nan_add_r | rewrite nan_sub_l | rewrite nan_sub_r | rewrite nan_mul_l
  | rewrite nan_mul_r | rewrite nan_div_l | rewrite nan_neg | rewrite nan_fma_1 | rewrite nan_fma_2 | rewrite nan_fma_3].

Lemma nan_linear_t c vs : length vs = 2%nat -> lin_nd o c nan vs = nan.
Proof.
  destruct vs as [|a [|b [|]]]; simpl length; intros; try lia. unfold lin_nd. cbv zeta. destruct (use_fma c); nan; reflexivity.
Qed.
Lemma nan_linear_v c t vs : length vs = 2%nat -> Forall (fun v => v = nan) vs -> lin_nd o c t vs = nan.
Proof.
  destruct vs as [|a [|b [|]]]; simpl length; intros L H; try lia. inversion H as [|? ? -> H']. inversion H' as [|? ? -> _].
  unfold lin_nd. cbv zeta. destruct (use_fma c); nan; reflexivity.
Qed.
Lemma nan_hermite_t c y dy k0 k1 : hermite o c nan y dy k0 k1 = nan.
Proof. unfold hermite. cbv zeta. destruct (use_fma c); nan; reflexivity. Qed.
Lemma nan_hermite_y c t dy k0 k1 : hermite o c t nan dy k0 k1 = nan.
Proof. unfold hermite. cbv zeta. destruct (use_fma c); nan; reflexivity. Qed.
Lemma nan_ext_t fma y k : linear_ext o fma y k nan = nan.
Proof. unfold linear_ext. destruct fma; nan; reflexivity. Qed.
Lemma nan_ext_y fma k t : linear_ext o fma nan k t = nan.
Proof. unfold linear_ext. destruct fma; nan; reflexivity. Qed.
Lemma nan_rect_inner c fma lin sat cell vs : length vs = 4%nat -> length cell = 4%nat ->
  rect_innerp o c fma lin sat nan cell vs = nan.
Proof.
  intros Lv Lc. destruct vs as [|v0 [|v1 [|v2 [|v3 [|]]]]]; simpl in Lv; try lia.
  destruct cell as [|g0 [|g1 [|g2 [|g3 [|]]]]]; simpl in Lc; try lia.
  unfold rect_innerp, rect_inner. cbv zeta.
  destruct sat; nan; try apply nan_hermite_t; destruct lin; first [apply nan_ext_t | apply nan_hermite_t].
Qed.
Lemma nan_rect_inner_v c fma lin sat x cell vs : length vs = 4%nat -> length cell = 4%nat ->
  Forall (fun v => v = nan) vs -> rect_innerp o c fma lin sat x cell vs = nan.
Proof.
  intros Lv Lc. destruct vs as [|v0 [|v1 [|v2 [|v3 [|]]]]]; simpl in Lv; try lia.
  destruct cell as [|g0 [|g1 [|g2 [|g3 [|]]]]]; simpl in Lc; try lia.
  intros H. do 4 (apply Forall_cons_iff in H; destruct H as (-> & H)).
  unfold rect_innerp, rect_inner. cbv zeta.
  destruct sat; try apply nan_hermite_y; destruct lin; first [apply nan_ext_y | apply nan_hermite_y].
Qed.

Lemma nan_tens FP V nd origin dims k : foot_in FP dims origin -> (k < length dims)%nat ->
  (forall vs, length vs = FP -> nd k vs = nan) ->
  (forall j vs, (j < length dims)%nat -> length vs = FP -> Forall (fun v => v = nan) vs -> nd j vs = nan) ->
  tens FP V nd origin (length dims) [] = nan.
Proof.
  intros Hf Hk H1 H2.
  assert (T := tens_inv FP V nd origin dims (fun j v => (k < j)%nat -> v = nan) Hf). simpl in T.
  apply T; auto; [intros; lia|]. intros j vs Hj Lv Hvs Hjk.
  destruct (Nat.eq_dec j k) as [-> |]; auto. apply H2; auto. eapply Forall_impl; [|apply Hvs].
  simpl. intros v Hv. apply Hv. lia.
Qed.

Theorem C33_proof_rectilinear_nan c grids vals eval x : float_rectilinear Hp He c grids vals eval ->
  length x = length grids -> In nan x -> eval x = Ok nan.
Proof.
  intros H Lx Hv. destruct (float_rectilinear_inv _ _ _ _ H) as (W & E). rewrite E by auto. f_equal.
  destruct (In_nth _ _ (fzero o) Hv) as (k & Hk & Ek). unfold mlc_value.
  destruct (rect_wf_dims W) as (L & _). rewrite <- L.
  apply nan_tens with (k := k).
  - apply rect_cells_foot; auto.
  - simpl in *. rewrite map_length. lia.
  - intros vs Lv. rewrite Ek. unfold rect_dtp. nan. apply nan_linear_t; auto.
  - intros j vs _ Lv Hvs. apply nan_linear_v; auto.
Qed.
Theorem C33_proof_cubic_nan c grids vals lin s x : rect_input c grids vals -> mcc_new o c grids vals lin = Ok s ->
  length x = length grids -> In nan x -> mcc_interp_one o c s x = Ok nan.
Proof.
  intros Hi H Lx Hv. destruct (mcc_new_inv _ _ Hi H) as (W & ->). rewrite mcc_char by auto. f_equal.
  destruct (In_nth _ _ (fzero o) Hv) as (k & Hk & Ek). unfold mcc_value. cbn [cc_base] in *.
  destruct (rect_wf_dims W) as (L & _). rewrite <- L.
  apply nan_tens with (k := k).
  - apply crect_cells_foot; auto.
  - simpl in *. rewrite map_length. lia.
  - intros vs Lv. unfold mcc_nd. rewrite Ek. apply nan_rect_inner; auto.
  - intros j vs _ Lv Hvs. apply nan_rect_inner_v; auto.
Qed.
Theorem C33_proof_cubic_nan_recursive c m grids vals lin s x : rect_input c grids vals -> mccr_new o c m grids vals lin = Ok s ->
  length x = length grids -> In nan x -> mccr_interp_one o c m s x = Ok nan.
Proof.
  intros Hi H Lx Hv. destruct (mccr_new_inv _ _ _ Hi H) as (W & -> & Hm). rewrite mccr_char by auto. f_equal.
  destruct (In_nth _ _ (fzero o) Hv) as (k & Hk & Ek). unfold mcc_value. cbn [cc_base] in *.
  destruct (rect_wf_dims W) as (L & _). rewrite <- L.
  apply nan_tens with (k := k).
  - apply crect_cells_foot; auto.
  - simpl in *. rewrite map_length. lia.
  - intros vs Lv. unfold mcc_nd. rewrite Ek. apply nan_rect_inner; auto.
  - intros j vs _ Lv Hvs. apply nan_rect_inner_v; auto.
Qed.
Theorem C33_proof_nearest_stored c grids vals s x : rect_input c grids vals -> nc_new o c grids vals = Ok s ->
  length x = length grids -> exists v, nc_interp_one o c s x = Ok v /\ In v vals.
Proof.
  intros Hi H Lx. destruct (mlc_new_inv _ Hi H) as (W & ->). rewrite nc_char by auto. eexists. split; [reflexivity|].
  destruct W as (W0 & W1 & W2 & W3). assert (W : rect_wf 2 (mkRect grids (map zlen grids) vals)) by (repeat split; auto; apply W3).
  apply entry_in; auto. cbn [g_dims g_grids] in *.
  apply foot_in_shape with (FP := 2%nat) (origin := rect_cells o (mkRect grids (map zlen grids) vals) x); [apply (@rect_cells_foot _ o _ x W)|].
  split; [rewrite map_length, seq_length, rect_cells_length; cbn [g_grids]; lia|].
  rewrite map_length, seq_length. intros j Hj. simpl plus.
  rewrite (nth_map_seq (nc_node o (mkRect grids (map zlen grids) vals) x)) by auto. rewrite rect_cells_nth by auto.
  match goal with |- context[nc_node _ _ _ _] => unfold nc_node end. cbn [g_grids].
  match goal with |- context[nearest_offset o ?t] => assert (R := nearest_offset_range o t) end. lia.
Qed.
End B.
