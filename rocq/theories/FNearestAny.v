(** Nearest-neighbour interpolation on a regular grid in floating point: which node is chosen for
    observations inside or outside the grid. *)
From Coq Require Import Reals Lra Lia List Bool ZifyBool ZifyNat PeanoNat.
From Flocq Require Import Core.Core IEEE754.BinarySingleNaN.
From Verif Require Import Base Ops FInst ModelCore ModelLinear ModelNearest Spec SpecOrder SpecIEEE SpecError.
From Verif Require Import CoreLemmas MethodLemmas MethodChar GenLemmas FLemmas UtilProofs FProofs FProofs2 FError.
From Verif Require Import RInst SpecReal RTensor R1D RChar Interpolators REval RProofs SpecApprox Approx SpecExtrap SpecReach FExtrap FNearest.
Import ListNotations.
Unset Implicit Arguments.
Open Scope list_scope.
Open Scope R_scope.

Section B.
Variables prec emax : Z.
Context (Hp : Prec_gt_0 prec) (He : Prec_lt_emax prec emax).
Notation fl := (binary_float prec emax).
Notation o := (BOps Hp He).
Notation fin x := (is_finite x = true).
Notation u := (bpow radix2 (- prec)).

Section Axis.
Variables (start h x : fl) (d : Z) (kappa : R).
Notation s := (B2R start).
Notation w := (B2R h).
Notation X := (B2R x).
Notation E := (u * kappa).
Hypothesis Fs : fin start.
Hypothesis Fh : fin h.
Hypothesis Fx : fin x.
Hypothesis Ph : 0 < w.
Hypothesis Hd : (2 <= d)%Z.
Hypothesis Hs : Rabs s <= kappa * w.
Hypothesis Ht : Rabs (s + w * IZR (d - 1)) <= kappa * w.
Hypothesis Hk : kappa * w <= bpow radix2 (emax - 3).
Hypothesis HE : 504 * E <= 1.
Hypothesis Hx : Rabs X <= kappa * w.
Hypothesis Hprec : (prec <= 64)%Z.
Notation a := (mkAxis d (fun i => s + w * IZR i)).
Notation T := (reg_pos prec emax start h x).

Lemma near_axis fma : exists i, reg_cell o start h d x = Ok i /\ (0 <= i <= d - 2)%Z /\
  nearest_up_to (16 * E * w) a X (i + nearest_offset o (reg_dtp o fma start h x i)).
Proof using All.
  destruct (u_small_any prec emax Hp He start h x d kappa Fs Fh Fx Ph Hd Hs Ht Hk HE Hx Hprec) as (U2 & U64).
  assert (XT := T_any prec emax Hp He start h x d kappa Fs Fh Fx Ph Hd Hs Ht Hk HE Hx Hprec).
  assert (TS := T_size prec emax Hp He start h x d kappa Fs Fh Fx Ph Hd Hs Ht Hk HE Hx Hprec).
  assert (SB := size_bound_any prec emax Hp He start h x d kappa Fs Fh Fx Ph Hd Hs Ht Hk HE Hx Hprec).
  destruct (kappa_half_any prec emax Hp He start h x d kappa Fs Fh Fx Ph Hd Hs Ht Hk HE Hx Hprec) as (K1 & K2).
  destruct (half_val prec emax Hp He U64) as (Fhf & Vh). assert (U := u_pos prec).
  assert (E0 : 0 <= E) by lra.
  assert (Di : forall j, Rabs (X - (s + w * IZR j)) = w * Rabs (T - IZR j)).
  { intros j. rewrite XT at 1. replace (_ - _) with (w * (T - IZR j)) by ring. rewrite Rabs_mult, (Rabs_pos_eq w) by lra. auto. }
  assert (Dec : (T < 0 \/ IZR (d - 1) < T) \/ 0 <= T <= IZR (d - 1)).
  { destruct (Rlt_le_dec T 0); [left; left; auto|]. destruct (Rlt_le_dec (IZR (d - 1)) T); [left; right; auto|right; split; auto]. }
  destruct Dec as [Out|In].
  - destruct (cell_outside prec emax Hp He start h x d kappa Fs Fh Fx Ph Hd Hs Ht Hk HE Hx Hprec Out) as (i & Ei & Hc).
    exists i. split; [exact Ei|]. assert (Hi := proj1 Hc). cbn [npts] in Hi. split; [exact Hi|].
    assert (Ic : (T < 0 /\ i = 0%Z) \/ (IZR (d - 1) < T /\ i = (d - 2)%Z)).
    { destruct Hc as (_ & C1 & C2). cbn [coord npts] in C1, C2. destruct Out as [T0|T1]; [left|right]; split; auto.
      - destruct C1 as [C1|C1]; [lia|]. destruct (Z.eq_dec i 0) as [|Ni]; [auto|]. exfalso.
        assert (1 <= IZR i) by (apply IZR_le; lia). assert (0 <= w * IZR i) by (apply Rmult_le_pos; lra).
        assert (w * T < w * 0) by (apply Rmult_lt_compat_l; lra). lra.
      - destruct C2 as [C2|C2]; [lia|]. destruct (Z.eq_dec i (d - 2)) as [|Ni]; [auto|]. exfalso.
        assert (IZR (i + 1) <= IZR (d - 1)) by (apply IZR_le; lia).
        assert (w * IZR (i + 1) < w * T) by (apply Rmult_lt_compat_l; lra). lra. }
    assert (Dd : IZR (d - 2) <= IZR (d - 1)) by (apply IZR_le; lia).
    assert (D0 : 0 <= IZR (d - 2)) by (apply IZR_le; lia).
    assert (D1 : IZR (d - 1) = IZR (d - 2) + 1) by (rewrite <- plus_IZR; f_equal; lia).
    set (G := 1 + Rabs (T - IZR i)).
    assert (G0 := Rabs_pos (T - IZR i)).
    assert (GX : G <= bpow radix2 (emax - 4)).
    { assert (P := prec_6 _ _ Hp He U64).
      assert (Q : bpow radix2 prec = 64 * bpow radix2 (prec - 6)).
      { replace prec with (6 + (prec - 6))%Z at 1 by lia. rewrite bpow_plus. reflexivity. }
      apply Rle_trans with (bpow radix2 (prec - 6)); [|apply bpow_le; unfold Prec_lt_emax in He; lia].
      assert (Rabs (T - IZR i) <= 4 * kappa).
      { apply Rabs_le_inv in TS. destruct Ic as [(_ & ->)|(_ & ->)]; apply Rabs_le; lra. }
      unfold G. lra. }
    destruct (position_outside prec emax Hp He start h x d kappa Fs Fh Fx Ph Hd Hs Ht Hk HE Hx Hprec fma i G Hi ltac:(unfold G; lra) GX ltac:(unfold G; lra)) as (F & Er).
    set (dt := reg_dtp o fma start h x i) in *. apply Rabs_le_inv in Er.
    assert (EG : E * G <= / 504 * G) by (apply Rmult_le_compat_r; [unfold G|]; lra).
    assert (Ro := @nearest_offset_range fl o dt).
    split; [cbn [npts]; lia|]. intros j Hj. cbn [npts] in Hj. cbn [coord]. rewrite !Di.
    assert (Pe : 0 <= 16 * E * w) by (apply Rmult_le_pos; lra).
    apply Rle_trans with (w * Rabs (T - IZR j)); [|lra]. apply Rmult_le_compat_l; [lra|].
    assert (J1 : 0 <= IZR j) by (apply IZR_le; lia). assert (J2 : IZR j <= IZR (d - 1)) by (apply IZR_le; lia).
    unfold nearest_offset. destruct (fle o dt (half o)) eqn:C.
    + apply leb_fin in C; auto. rewrite Vh in C. destruct Ic as [(T0 & ->)|(T1 & ->)].
      * rewrite Z.add_0_r. rewrite !Rabs_left1 by lra. lra.
      * exfalso. unfold G in *. rewrite (Rabs_pos_eq (T - IZR (d - 2))) in * by lra. lra.
    + assert (C' : ~ B2R dt <= / 2). { intros C'. rewrite <- Vh in C'. apply (leb_fin Hp He) in C'; auto. congruence. }
      apply Rnot_le_lt in C'. destruct Ic as [(T0 & ->)|(T1 & ->)].
      * exfalso. unfold G in *. rewrite (Rabs_left1 (T - IZR 0)) in * by lra. lra.
      * replace (d - 2 + 1)%Z with (d - 1)%Z by lia. rewrite !Rabs_pos_eq by lra. lra.
  - assert (Hx' : s <= X <= s + w * IZR (d - 1)).
    { assert (w * 0 <= w * T) by (apply Rmult_le_compat_l; lra). assert (w * T <= w * IZR (d - 1)) by (apply Rmult_le_compat_l; lra). lra. }
    destruct (cell_ok prec emax Hp He start h x d kappa Fs Fh Fx Ph Hd Hs Ht Hk HE Hx' Hprec) as (i & Ei & Hi & Ri).
    exists i. split; [exact Ei|]. split; [exact Hi|].
    destruct (reg_position_error prec emax Hp He start h x d kappa Fs Fh Fx Ph Hd Hs Ht Hk HE Hx' Hprec fma i Hi Ri) as (F & Er).
    set (dt := reg_dtp o fma start h x i) in *.
    assert (Ro := @nearest_offset_range fl o dt).
    split; [cbn [npts]; lia|]. intros j Hj. cbn [npts] in Hj. cbn [coord]. rewrite !Di.
    replace (w * Rabs (T - IZR j) + 16 * E * w) with (w * (Rabs (T - IZR j) + 16 * E)) by ring.
    apply Rmult_le_compat_l; [lra|]. apply Rabs_le_inv in Er.
    assert (J : (j <= i)%Z \/ (i + 1 <= j)%Z) by lia.
    assert (JR : IZR j <= IZR i \/ IZR i + 1 <= IZR j).
    { destruct J as [J|J]; [left; apply IZR_le; auto|right; rewrite <- plus_IZR; apply IZR_le; auto]. }
    set (tt := T) in *. clearbody tt.
    unfold nearest_offset. destruct (fle o dt (half o)) eqn:C.
    + apply leb_fin in C; auto. rewrite Vh in C. rewrite Z.add_0_r.
      unfold Rabs; repeat destruct (Rcase_abs _); destruct JR; lra.
    + assert (C' : ~ B2R dt <= / 2). { intros C'. rewrite <- Vh in C'. apply (leb_fin Hp He) in C'; auto. congruence. }
      apply Rnot_le_lt in C'. rewrite plus_IZR.
      unfold Rabs; repeat destruct (Rcase_abs _); destruct JR; lra.
Qed.
End Axis.

Theorem nearest_regular_any c dims (starts steps vals : list fl) s (x : list fl) kappa :
  let axes := reg_axes dims (map B2R starts) (map B2R steps) in
  reg_input c dims starts steps vals -> nr_new o c dims starts steps vals = Ok s ->
  axes_within prec emax kappa starts steps dims -> length x = length dims -> point_within prec emax kappa steps x ->
  504 * (roundoff prec * kappa) <= 1 -> (prec <= 64)%Z ->
  exists idx, in_shape (map npts axes) idx /\ nr_interp_one o c s x = Ok (entry (fzero o) (map npts axes) vals idx) /\
  forall k a, nth_error axes k = Some a ->
    nearest_up_to (16 * (roundoff prec * kappa) * B2R (nth k steps (fzero o))) a (nth k (map B2R x) 0) (nth k idx 0%Z).
Proof.
  intros axes Hi H Ha Lx Hxk HE Hprec. unfold roundoff in *.
  destruct (float_regular_inv _ _ _ _ _ _ _ _ _ _ (float_regular_flat Hp He Hi H)) as (_ & P & _).
  destruct (mlr_new_inv _ Hi H) as (W & ->). assert (W' := W). destruct W' as (W0 & W1 & W2 & W3 & W4). cbn [r_dims r_starts r_steps r_vals] in *.
  assert (L1 : length (map (@B2R prec emax) starts) = length dims) by (rewrite map_length; auto).
  assert (L2 : length (map (@B2R prec emax) steps) = length dims) by (rewrite map_length; auto).
  assert (La := reg_axes_length _ _ _ L1 L2). assert (Dm := reg_axes_npts _ _ _ L1 L2). fold axes in La, Dm.
  set (st := fun k => nth k starts (fzero o)). set (sp := fun k => nth k steps (fzero o)).
  set (xx := fun k => nth k x (fzero o)). set (dd := fun k => nth k dims 0%Z).
  assert (NA : forall k, (k < length dims)%nat -> nth k axes ax0 = mkAxis (dd k) (fun i => B2R (st k) + B2R (sp k) * IZR i)).
  { intros k Hk. unfold axes. rewrite reg_axes_nth by auto. rewrite !(nth_B2R prec emax Hp He). reflexivity. }
  assert (CE : forall k, (k < length dims)%nat -> exists i, reg_cell o (st k) (sp k) (dd k) (xx k) = Ok i /\ (0 <= i <= dd k - 2)%Z /\
    nearest_up_to (16 * (u * kappa) * B2R (sp k)) (mkAxis (dd k) (fun i => B2R (st k) + B2R (sp k) * IZR i)) (B2R (xx k))
      (i + nearest_offset o (reg_dtp o (use_fma c) (st k) (sp k) (xx k) i))).
  { intros k Hk.
    destruct (Ha k (st k) (sp k) (dd k)) as (F1 & F2 & H1 & H2 & H3); try (apply nth_error_nth_some; lia).
    destruct (Hxk k (sp k) (xx k)) as (F3 & H4); try (apply nth_error_nth_some; lia).
    apply near_axis; auto.
    - assert (Q : flt o (fzero o) (sp k) = true) by (apply (Forall_nth_lt (fzero o) P); lia). apply ltb_fin in Q; auto.
    - apply (Forall_nth_lt 0%Z W3 Hk). }
  destruct (mapM_total _ _ (fun k => reg_cell o (st k) (sp k) (dd k) (xx k)) (seq 0 (length dims))) as (os & Eos).
  { intros k Hk. apply in_seq in Hk. destruct (CE k ltac:(lia)) as (i & -> & _). eauto. }
  assert (Eos' : reg_cells o (mkRegular dims starts steps vals) x = Ok os) by exact Eos.
  exists (map (fun k => nr_node o c (mkRegular dims starts steps vals) x k (nth k os 0%Z)) (seq 0 (length dims))).
  assert (K : forall k a, nth_error axes k = Some a ->
    nearest_up_to (16 * (u * kappa) * B2R (nth k steps (fzero o))) a (nth k (map B2R x) 0)
      (nth k (map (fun k => nr_node o c (mkRegular dims starts steps vals) x k (nth k os 0%Z)) (seq 0 (length dims))) 0%Z)).
  { intros k a Hk. assert (Lk : (k < length dims)%nat) by (rewrite <- La; apply nth_error_Some; congruence).
    rewrite nth_map_seq by auto. apply (nth_error_nth axes k ax0) in Hk. rewrite NA in Hk by auto. subst a.
    rewrite (nth_B2R prec emax Hp He). fold (xx k). fold (sp k).
    destruct (CE k Lk) as (i & Ei & Ri & Rt).
    assert (Ek := @mapM_snoc_nth _ 0%Z _ _ _ Eos k Lk). cbv beta in Ek. rewrite Ei in Ek. injection Ek as <-. exact Rt. }
  split; [|split; [|exact K]].
  - apply Forall2_nth_intro with (da := 0%Z) (db := 0%Z); [rewrite !map_length, seq_length; auto|].
    rewrite map_length. intros k Hk. destruct (K k (nth k axes ax0)) as (Rk & _); [apply nth_error_nth_some; auto|].
    rewrite (nth_indep (map npts axes) 0%Z (npts ax0)) by (rewrite map_length; auto). rewrite map_nth. exact Rk.
  - rewrite nr_char by (auto; apply usize_converts_B). rewrite Eos', Dm. reflexivity.
Qed.
End B.
