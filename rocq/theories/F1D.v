(** The one-dimensional interpolators over the IEEE instances. *)
From Coq Require Import Reals Lra Lia List Bool ZifyBool ZifyNat PeanoNat.
From Flocq Require Import Core.Core Relative Plus_error IEEE754.BinarySingleNaN.
From Verif Require Import Base Ops FInst ModelCore ModelOneDim Spec SpecOrder SpecIEEE.
From Verif Require Import CoreLemmas TensorLemmas SearchLemmas MethodLemmas MethodChar GenLemmas OrderLemmas FLemmas UtilProofs FProofs FProofs2 FError.
From Verif Require Import RInst SpecReal RTensor R1D RChar Interpolators Spec1D OneDimProofs SpecError SpecFloat1D.
Import ListNotations.
Unset Implicit Arguments.
Open Scope list_scope.
Open Scope R_scope.

(** ** Any number type with a transitive irreflexive [<] *)
Section Any.
Context {F : Type} (o : Ops F) (c : cfg).

Lemma c1_sample grid vals g x d : lt_transitive o -> increasing_grid o grid -> (zlen vals <= isize_max)%Z ->
  c1_new grid vals = Ok g ->
  let i := clipped_cell o x grid in
  zlen grid = zlen vals /\ (2 <= zlen grid)%Z /\ bracketing_cell o x grid i /\
  exists e, c1_at o c g x = Ok (mkSample (nth (Z.to_nat i) grid d) (nth (Z.to_nat i) vals d)
      (nth (Z.to_nat (i + 1)) grid d) (nth (Z.to_nat (i + 1)) vals d) e) /\ extrap_of o x grid e.
Proof.
  intros T I Hn Hg i. unfold c1_new in Hg. destruct (_ || _) eqn:Ec; [discriminate|].
  inversion Hg; subst g; clear Hg.
  assert (El : length grid = length vals) by lia. assert (Hl : (2 <= length grid)%nat) by lia.
  assert (P : prefix_true (fun v => flt o v x) grid) by (apply increasing_prefix; auto).
  assert (Hz : (2 <= zlen grid <= isize_max)%Z) by (unfold zlen in *; lia).
  assert (Ez : zlen grid = zlen vals) by (unfold zlen; lia).
  destruct (@c1_index_spec _ o c _ vals x P Hz) as (e & E & Xe). fold i in E.
  assert (B := @clipped_bracketing _ _ _ _ P (proj1 Hz)). fold i in B. assert (Ri := proj1 B).
  split; [exact Ez|]. split; [lia|]. split; [exact B|]. exists e. split; [|exact Xe].
  unfold c1_at. rewrite E. cbn [bind c1_grid c1_vals].
  rewrite (@idx_nth _ grid i d) by lia. cbn [bind].
  rewrite usize_add_ok by (unfold two64, isize_max in *; lia). cbn [bind].
  rewrite (@idx_nth _ grid (i + 1)%Z d) by lia. cbn [bind].
  rewrite (@idx_nth _ vals i d) by lia. cbn [bind].
  rewrite (@idx_nth _ vals (i + 1)%Z d) by lia. reflexivity.
Qed.

Lemma extrap_facts x grid e d : (2 <= zlen grid)%Z -> extrap_of o x grid e ->
  match e with ExtrapLow => flt o x (nth 0 grid d) = true
   | ExtrapHigh => flt o x (nth 0 grid d) = false /\ flt o (last grid d) x = true
   | Inside => flt o x (nth 0 grid d) = false /\ flt o (last grid d) x = false end.
Proof.
  intros Hl X. unfold extrap_of in X. destruct grid as [|g0 grid']; [unfold zlen in Hl; simpl in Hl; lia|].
  rewrite last_nth in *. rewrite (nth_indep (g0 :: grid') d g0 (n := length (g0 :: grid') - 1)) by (simpl; lia). exact X.
Qed.

Lemma count_between grid x i d : lt_transitive o -> lt_irreflexive o -> increasing_grid o grid ->
  (0 <= i <= zlen grid - 2)%Z -> flt o (nth (Z.to_nat i) grid d) x = true ->
  flt o (nth (Z.to_nat (i + 1)) grid d) x = false -> count_below o x grid = (i + 1)%Z.
Proof.
  intros T Ir I Hi Ha Hb. assert (P : prefix_true (fun v => flt o v x) grid) by (apply increasing_prefix; auto).
  assert (ZL : Z.of_nat (length grid) = zlen grid) by reflexivity.
  destruct (@search_spec _ o _ _ P) as (_ & H1 & H2 & R).
  assert (Ea : nth_error grid (Z.to_nat i) = Some (nth (Z.to_nat i) grid d)) by (apply nth_error_nth'; lia).
  assert (Eb : nth_error grid (Z.to_nat (i + 1)) = Some (nth (Z.to_nat (i + 1)) grid d)) by (apply nth_error_nth'; lia).
  destruct (Z_lt_le_dec i (count_below o x grid)) as [L|L].
  - destruct (Z_lt_le_dec (i + 1) (count_below o x grid)) as [L'|L']; [|lia].
    rewrite (H1 (Z.to_nat (i + 1)) _ ltac:(lia) Eb) in Hb. discriminate.
  - rewrite (H2 (Z.to_nat i) _ ltac:(lia) Ea) in Ha. discriminate.
Qed.

(** Left1D and Right1D between two grid points. *)
Theorem hold_between grid vals g x i d : lt_transitive o -> lt_irreflexive o -> increasing_grid o grid ->
  (zlen vals <= isize_max)%Z -> c1_new grid vals = Ok g -> (0 <= i <= zlen grid - 2)%Z ->
  flt o (nth (Z.to_nat i) grid d) x = true -> flt o x (nth (Z.to_nat (i + 1)) grid d) = true ->
  left1 (c1_at o c g) x = Ok (nth (Z.to_nat i) vals d) /\ right1 (c1_at o c g) x = Ok (nth (Z.to_nat (i + 1)) vals d).
Proof.
  intros T Ir I Hn Hg Hi Ha Hb. destruct (c1_sample grid vals g x d T I Hn Hg) as (Ez & Hz & B & e & A & X).
  assert (ZL : Z.of_nat (length grid) = zlen grid) by reflexivity.
  assert (NB : flt o (nth (Z.to_nat (i + 1)) grid d) x = false).
  { destruct (flt o (nth (Z.to_nat (i + 1)) grid d) x) eqn:E; auto. rewrite <- (Ir x). symmetry. eapply T; eauto. }
  assert (C := count_between grid x i d T Ir I Hi Ha NB).
  assert (Ci : clipped_cell o x grid = i) by (unfold clipped_cell; rewrite C; lia). rewrite Ci in *.
  assert (LE : forall a b k, (k <= Z.to_nat i)%nat -> nth_error grid k = Some a -> nth_error grid (Z.to_nat i) = Some b -> flt o a x = true).
  { intros a b k Hk Hka Hkb. destruct (Nat.eq_dec k (Z.to_nat i)) as [-> |].
    - rewrite (nth_error_nth _ _ d Hka) in Ha. exact Ha.
    - eapply T; [|exact Ha]. rewrite (nth_error_nth _ _ d Hkb). eapply (I k (Z.to_nat i)); eauto. lia. }
  apply (extrap_facts _ _ _ d Hz) in X. unfold left1, right1. rewrite A. cbn [bind sextrap sy0 sy1].
  assert (E0 : nth_error grid 0 = Some (nth 0 grid d)) by (apply nth_error_nth'; lia).
  assert (Ei : nth_error grid (Z.to_nat i) = Some (nth (Z.to_nat i) grid d)) by (apply nth_error_nth'; lia).
  assert (Ei1 : nth_error grid (Z.to_nat (i + 1)) = Some (nth (Z.to_nat (i + 1)) grid d)) by (apply nth_error_nth'; lia).
  assert (El : nth_error grid (length grid - 1) = Some (last grid d)) by (rewrite last_nth; apply nth_error_nth'; lia).
  destruct e; [auto| |].
  - exfalso. assert (G0 := LE _ _ 0%nat ltac:(lia) E0 Ei). assert (Q := T _ _ _ X G0). rewrite Ir in Q. discriminate.
  - exfalso. destruct X as (_ & X).
    destruct (Nat.eq_dec (Z.to_nat (i + 1)) (length grid - 1)) as [Eq|Ne].
    + rewrite last_nth, <- Eq in X. rewrite X in NB. discriminate.
    + assert (Q := I (Z.to_nat (i + 1)) (length grid - 1)%nat _ _ ltac:(lia) Ei1 El).
      rewrite (T _ _ _ Q X) in NB. discriminate.
Qed.

(** Left1D and Right1D outside the grid. *)
Theorem hold_outside grid vals g x d : lt_transitive o -> lt_irreflexive o -> increasing_grid o grid ->
  (zlen vals <= isize_max)%Z -> c1_new grid vals = Ok g ->
  (flt o x (nth 0 grid d) = true ->
     left1 (c1_at o c g) x = Ok (nth 0 vals d) /\ right1 (c1_at o c g) x = Ok (nth 0 vals d)) /\
  (flt o (last grid d) x = true ->
     left1 (c1_at o c g) x = Ok (last vals d) /\ right1 (c1_at o c g) x = Ok (last vals d)).
Proof.
  intros T Ir I Hn Hg. destruct (c1_sample grid vals g x d T I Hn Hg) as (Ez & Hz & B & e & A & X).
  assert (ZL : Z.of_nat (length grid) = zlen grid) by reflexivity.
  apply (extrap_facts _ _ _ d Hz) in X. unfold left1, right1. rewrite A. cbn [bind sextrap sy0 sy1].
  assert (E0 : nth_error grid 0 = Some (nth 0 grid d)) by (apply nth_error_nth'; lia).
  assert (El : nth_error grid (length grid - 1) = Some (last grid d)) by (rewrite last_nth; apply nth_error_nth'; lia).
  split; intros Hx.
  - assert (C := @count_low _ o _ _ _ T Ir I E0 Hx).
    assert (Ci : clipped_cell o x grid = 0%Z) by (unfold clipped_cell; rewrite C; lia). rewrite Ci.
    destruct e; [destruct X; congruence|auto|destruct X; congruence].
  - assert (C := @count_high _ o _ _ _ T I El Hx).
    assert (Ci : clipped_cell o x grid = (zlen grid - 2)%Z) by (unfold clipped_cell; rewrite C; lia). rewrite Ci.
    assert (N0 : flt o x (nth 0 grid d) = false).
    { destruct (flt o x (nth 0 grid d)) eqn:E; auto. exfalso.
      assert (Q : flt o (nth 0 grid d) (last grid d) = true) by (apply (I 0%nat (length grid - 1)%nat); auto; lia).
      assert (Q1 := T _ _ _ E Q). assert (Q2 := T _ _ _ Q1 Hx). rewrite Ir in Q2. discriminate. }
    replace (Z.to_nat (zlen grid - 2 + 1)) with (length vals - 1)%nat by (unfold zlen in *; lia). rewrite <- last_nth.
    destruct e; [destruct X; congruence|congruence|auto].
Qed.

(** Left1D and Right1D at a grid point. *)
Theorem hold_at_node grid vals g i d : lt_transitive o -> lt_irreflexive o -> increasing_grid o grid ->
  (zlen vals <= isize_max)%Z -> c1_new grid vals = Ok g -> (0 <= i < zlen grid)%Z ->
  left1 (c1_at o c g) (nth (Z.to_nat i) grid d) = Ok (nth (Z.to_nat (Z.max (i - 1) 0)) vals d) /\
  right1 (c1_at o c g) (nth (Z.to_nat i) grid d) = Ok (nth (Z.to_nat (Z.max (i - 1) 0 + 1)) vals d).
Proof.
  intros T Ir I Hn Hg Hi. set (x := nth (Z.to_nat i) grid d).
  destruct (c1_sample grid vals g x d T I Hn Hg) as (Ez & Hz & B & e & A & X).
  assert (ZL : Z.of_nat (length grid) = zlen grid) by reflexivity.
  apply (extrap_facts _ _ _ d Hz) in X. unfold left1, right1. rewrite A. cbn [bind sextrap sy0 sy1].
  assert (E0 : nth_error grid 0 = Some (nth 0 grid d)) by (apply nth_error_nth'; lia).
  assert (Ei : nth_error grid (Z.to_nat i) = Some x) by (apply nth_error_nth'; lia).
  assert (El : nth_error grid (length grid - 1) = Some (last grid d)) by (rewrite last_nth; apply nth_error_nth'; lia).
  assert (P : prefix_true (fun v => flt o v x) grid) by (apply increasing_prefix; auto).
  destruct (@search_spec _ o _ _ P) as (_ & H1 & H2 & R).
  assert (C : count_below o x grid = i).
  { destruct (Z_lt_le_dec i (count_below o x grid)) as [L|L].
    - exfalso. assert (Q := H1 (Z.to_nat i) _ ltac:(lia) Ei). rewrite Ir in Q. discriminate.
    - destruct (Z_lt_le_dec (count_below o x grid) i) as [L'|L']; [|lia]. exfalso.
      assert (Ej : nth_error grid (Z.to_nat (i - 1)) = Some (nth (Z.to_nat (i - 1)) grid d)) by (apply nth_error_nth'; lia).
      assert (Q := H2 (Z.to_nat (i - 1)) _ ltac:(lia) Ej). assert (Q' := I (Z.to_nat (i - 1)) (Z.to_nat i) _ _ ltac:(lia) Ej Ei). congruence. }
  assert (Ci : clipped_cell o x grid = Z.max (i - 1) 0) by (unfold clipped_cell; rewrite C; lia). rewrite Ci.
  destruct e; [auto| |].
  - exfalso. destruct (Z.eq_dec i 0) as [-> |].
    + unfold x in X. change (Z.to_nat 0) with 0%nat in X. rewrite Ir in X. discriminate.
    + assert (Q := I 0%nat (Z.to_nat i) _ _ ltac:(lia) E0 Ei). assert (Q1 := T _ _ _ X Q). rewrite Ir in Q1. discriminate.
  - exfalso. destruct X as (_ & X). destruct (Z.eq_dec i (zlen grid - 1)) as [Eq|].
    + assert (Q : last grid d = x). { rewrite last_nth. unfold x. f_equal. lia. } rewrite Q, Ir in X. discriminate.
    + assert (Q := I (Z.to_nat i) (length grid - 1)%nat _ _ ltac:(lia) Ei El). assert (Q1 := T _ _ _ X Q). rewrite Ir in Q1. discriminate.
Qed.
End Any.

Section B.
Variables prec emax : Z.
Context (Hp : Prec_gt_0 prec) (He : Prec_lt_emax prec emax).
Notation fl := (binary_float prec emax).
Notation o := (BOps Hp He).
Notation emin := (3 - emax - prec)%Z.
Notation fin x := (is_finite x = true).
Notation rnd := (rnd prec emax).
Notation small v := (@moderate prec emax v).
Notation u := (bpow radix2 (- prec)).
Notation eta := (/ 2 * bpow radix2 emin).
Notation u_pos := (u_pos prec).
Notation eta_pos := (eta_pos prec emax).
Notation rnd_abs := (rnd_abs prec emax Hp).
Notation rnd_rel := (rnd_rel prec emax Hp).
Notation rnd_lt := (rnd_lt prec emax Hp He).
Notation on_grid_sub := (on_grid_sub prec emax).
Notation on_grid_add := (on_grid_add prec emax).
Notation on_grid_fl := (on_grid_fl prec emax).

Section Node.
Hypothesis Hu : u <= / 64.

Lemma eta_far (v : R) : Rabs v <= bpow radix2 (emax - 1) -> eta * Rabs v <= 2 * u.
Proof using All.
  intros Hv. assert (N := eta_pos).
  apply Rle_trans with (eta * bpow radix2 (emax - 1)); [apply Rmult_le_compat_l; lra|].
  right. rewrite Rmult_assoc, <- bpow_plus. replace (3 - emax - prec + (emax - 1))%Z with (2 + - prec)%Z by lia.
  rewrite bpow_plus. change (bpow radix2 2) with 4. lra.
Qed.

(** The straight line through two points, evaluated in floating point. *)
Lemma line_err c (a b y0 y1 x : fl) e : small a -> small b -> small x -> B2R a < B2R b ->
  fin y0 -> fin y1 -> Rabs (B2R y0) <= bpow radix2 (emax - 4) -> Rabs (B2R y1) <= bpow radix2 (emax - 4) ->
  let D := B2R y1 - B2R y0 in let H := B2R b - B2R a in let X := B2R x - B2R a in
  Rabs (D / H) <= bpow radix2 (emax - 2) -> Rabs (D / H * X) <= bpow radix2 (emax - 2) ->
  let r := line_through o c (mkSample a y0 b y1 e) x in
  fin r /\ Rabs (B2R r - (B2R y0 + D / H * X))
    <= u * (Rabs (B2R y0 + D / H * X) + 6 * Rabs (D / H * X)) + 2 * eta * (1 + Rabs X).
Proof using All.
  intros (Fa & Sa) (Fb & Sb) (Fx & Sx) Hab F0 F1 B0 B1 D H X HS HP r.
  assert (U := u_pos). assert (N := eta_pos). destruct (eta_small prec emax Hp He Hu) as (N1 & N2).
  assert (X1 : bpow radix2 (emax - 1) = 2 * bpow radix2 (emax - 2)).
  { replace (emax - 1)%Z with (1 + (emax - 2))%Z by lia. rewrite bpow_plus. reflexivity. }
  assert (X2 : bpow radix2 (emax - 2) = 2 * bpow radix2 (emax - 3)).
  { replace (emax - 2)%Z with (1 + (emax - 3))%Z by lia. rewrite bpow_plus. reflexivity. }
  assert (X3 : bpow radix2 (emax - 3) = 2 * bpow radix2 (emax - 4)).
  { replace (emax - 3)%Z with (1 + (emax - 4))%Z by lia. rewrite bpow_plus. reflexivity. }
  assert (X0 := bpow_gt_0 radix2 (emax - 4)).
  assert (X5 : 1 <= bpow radix2 (emax - 4)).
  { change 1 with (bpow radix2 0). apply bpow_le. assert (P := prec_6 prec emax Hp He Hu). unfold Prec_lt_emax in He. lia. }
  assert (BX : Rabs X <= bpow radix2 (emax - 1)).
  { unfold X. apply Rabs_le_inv in Sa. apply Rabs_le_inv in Sx. apply Rabs_le. lra. }
  assert (FarX := eta_far X BX).
  destruct (sub_ok _ _ Hp He y1 y0 F1 F0) as (Fd & Vd).
  { apply rnd_lt. apply Rabs_le_inv in B0. apply Rabs_le_inv in B1. apply Rabs_le. lra. }
  destruct (sub_ok _ _ Hp He b a Fb Fa) as (Fh & Vh).
  { apply rnd_lt. apply Rabs_le_inv in Sa. apply Rabs_le_inv in Sb. apply Rabs_le. lra. }
  destruct (sub_ok _ _ Hp He x a Fx Fa) as (Fv & Vv); [apply rnd_lt; exact BX|].
  assert (Ed := rnd_rel (B2R y1 - B2R y0) ltac:(apply on_grid_sub; apply on_grid_fl)). rewrite <- Vd in Ed. fold D in Ed.
  assert (Eh := rnd_rel (B2R b - B2R a) ltac:(apply on_grid_sub; apply on_grid_fl)). rewrite <- Vh in Eh. fold H in Eh.
  assert (Ev := rnd_rel (B2R x - B2R a) ltac:(apply on_grid_sub; apply on_grid_fl)). rewrite <- Vv in Ev. fold X in Ev.
  assert (PH : 0 < H) by (unfold H; lra). rewrite (Rabs_pos_eq H) in Eh by lra.
  assert (UH : u * H <= / 64 * H) by (apply Rmult_le_compat_r; lra).
  unfold r, line_through. cbn [sx0 sy0 sx1 sy1]. clear r.
  set (dy := fsub o y1 y0) in *. set (dh := fsub o b a) in *. set (dx := fsub o x a) in *.
  assert (P2 : 63 / 64 * H <= B2R dh) by (apply Rabs_le_inv in Eh; lra).
  set (S := D / H) in *. assert (DS : D = S * H) by (unfold S; field; lra).
  assert (S0 := Rabs_pos S). assert (AD : Rabs D = Rabs S * H) by (rewrite DS, Rabs_mult, (Rabs_pos_eq H); lra).
  (* the quotient *)
  assert (Eq : Rabs (B2R dy / B2R dh - S) <= 128 / 63 * (u * Rabs S)).
  { replace (B2R dy / B2R dh - S) with (((B2R dy - D) - S * (B2R dh - H)) / B2R dh) by (rewrite DS; field; lra).
    unfold Rdiv at 1. rewrite Rabs_mult, (Rabs_pos_eq (/ B2R dh)) by (left; apply Rinv_0_lt_compat; lra).
    apply Rmult_le_reg_r with (B2R dh); [lra|]. rewrite Rmult_assoc, Rinv_l, Rmult_1_r by lra.
    assert (Q : Rabs (S * (B2R dh - H)) <= Rabs S * (u * H)) by (apply abs_mul; [lra|exact Eh]).
    assert (Y : Rabs (B2R dy - D - S * (B2R dh - H)) <= u * (Rabs S * H) + Rabs S * (u * H)).
    { unfold Rminus at 1. apply abs_add; [rewrite <- AD; exact Ed|rewrite Rabs_Ropp; exact Q]. }
    eapply Rle_trans; [exact Y|].
    assert (0 <= u * Rabs S) by (apply Rmult_le_pos; lra).
    assert (128 / 63 * (u * Rabs S) * (63 / 64 * H) <= 128 / 63 * (u * Rabs S) * B2R dh) by (apply Rmult_le_compat_l; lra). lra. }
  assert (US : u * Rabs S <= / 64 * Rabs S) by (apply Rmult_le_compat_r; lra).
  assert (US0 : 0 <= u * Rabs S) by (apply Rmult_le_pos; lra).
  assert (Bq : Rabs (B2R dy / B2R dh) <= Rabs S + 128 / 63 * (u * Rabs S)).
  { replace (B2R dy / B2R dh) with (S + (B2R dy / B2R dh - S)) by ring. apply abs_add; [lra|exact Eq]. }
  destruct (div_ok _ _ Hp He dy dh Fd ltac:(lra)) as (Fs & Vs); [apply rnd_lt; lra|].
  assert (Es := rnd_abs (B2R dy / B2R dh)). rewrite <- Vs in Es. set (sl := fdiv o dy dh) in *.
  assert (UUS : u * (u * Rabs S) <= / 64 * (u * Rabs S)) by (apply Rmult_le_compat_r; lra).
  assert (Esl : Rabs (B2R sl - S) <= 307 / 100 * (u * Rabs S) + eta).
  { replace (B2R sl - S) with ((B2R sl - B2R dy / B2R dh) + (B2R dy / B2R dh - S)) by ring.
    eapply Rle_trans; [apply abs_add; [exact Es|exact Eq]|].
    assert (u * Rabs (B2R dy / B2R dh) <= u * (Rabs S + 128 / 63 * (u * Rabs S))) by (apply Rmult_le_compat_l; lra). lra. }
  (* the product *)
  assert (A0 := Rabs_pos X). set (AX := Rabs X) in *.
  assert (UX : u * AX <= / 64 * AX) by (apply Rmult_le_compat_r; lra).
  assert (UX0 : 0 <= u * AX) by (apply Rmult_le_pos; lra).
  assert (Bdx : Rabs (B2R dx) <= 65 / 64 * AX).
  { replace (B2R dx) with (X + (B2R dx - X)) by ring. eapply Rle_trans; [apply abs_add; [apply Rle_refl|exact Ev]|].
    fold AX. lra. }
  assert (PP : Rabs (S * X) = Rabs S * AX) by apply Rabs_mult. set (P := Rabs (S * X)) in *.
  assert (P0 : 0 <= P) by apply Rabs_pos.
  set (n := eta * AX) in *. assert (n0 : 0 <= n) by (apply Rmult_le_pos; lra).
  assert (UP0 : 0 <= u * P) by (apply Rmult_le_pos; lra).
  assert (UP : u * P <= / 64 * P) by (apply Rmult_le_compat_r; lra).
  assert (Ep : Rabs (B2R sl * B2R dx - S * X) <= 412 / 100 * (u * P) + 65 / 64 * n).
  { replace (B2R sl * B2R dx - S * X) with ((B2R sl - S) * B2R dx + S * (B2R dx - X)) by ring.
    eapply Rle_trans; [apply abs_add; [apply abs_mul; [exact Esl|exact Bdx]|apply abs_mul; [apply Rle_refl|exact Ev]]|].
    fold AX. rewrite PP. unfold n.
    replace ((307 / 100 * (u * Rabs S) + eta) * (65 / 64 * AX) + Rabs S * (u * AX)) with
      ((307 / 100 * (65 / 64) + 1) * (u * (Rabs S * AX)) + 65 / 64 * (eta * AX)) by ring.
    rewrite <- PP. lra. }
  assert (Un : u * n <= / 64 * n) by (apply Rmult_le_compat_r; lra).
  assert (UUP : u * (u * P) <= / 64 * (u * P)) by (apply Rmult_le_compat_r; lra).
  set (L := B2R y0 + S * X) in *.
  assert (BL : Rabs L <= bpow radix2 (emax - 4) + bpow radix2 (emax - 2)) by (apply abs_add; auto).
  assert (L0 := Rabs_pos L).
  assert (n1 : n <= / 32) by lra.
  assert (Pp : Rabs (B2R sl * B2R dx) <= P + (412 / 100 * (u * P) + 65 / 64 * n)).
  { replace (B2R sl * B2R dx) with (S * X + (B2R sl * B2R dx - S * X)) by ring. apply abs_add; [apply Rle_refl|exact Ep]. }
  assert (UEta : u * eta <= / 64 * eta) by (apply Rmult_le_compat_r; lra).
  destruct (use_fma c).
  - cbn [fmuladd BOps].
    assert (Es' : Rabs (B2R sl * B2R dx + B2R y0 - L) <= 412 / 100 * (u * P) + 65 / 64 * n).
    { unfold L. replace (B2R sl * B2R dx + B2R y0 - (B2R y0 + S * X)) with (B2R sl * B2R dx - S * X) by ring. exact Ep. }
    assert (Bs : Rabs (B2R sl * B2R dx + B2R y0) <= Rabs L + (412 / 100 * (u * P) + 65 / 64 * n)).
    { replace (B2R sl * B2R dx + B2R y0) with (L + (B2R sl * B2R dx + B2R y0 - L)) by ring. apply abs_add; [apply Rle_refl|exact Es']. }
    destruct (fma_ok _ _ Hp He sl dx y0 Fs Fv F0) as (F & V); [apply rnd_lt; lra|].
    split; [exact F|]. cbn [fmuladd BOps] in V. rewrite V.
    assert (Er := rnd_abs (B2R sl * B2R dx + B2R y0)).
    set (q := B2R sl * B2R dx + B2R y0) in *.
    replace (rnd q - L) with ((rnd q - q) + (q - L)) by ring.
    eapply Rle_trans; [apply abs_add; [exact Er|exact Es']|].
    assert (u * Rabs q <= u * (Rabs L + (412 / 100 * (u * P) + 65 / 64 * n))) by (apply Rmult_le_compat_l; lra).
    replace (2 * eta * (1 + AX)) with (2 * eta + 2 * n) by (unfold n; ring). lra.
  - destruct (mul_ok _ _ Hp He sl dx Fs Fv) as (Fm & Vm); [apply rnd_lt; lra|].
    assert (Em := rnd_abs (B2R sl * B2R dx)). rewrite <- Vm in Em. set (p := fmul o sl dx) in *.
    assert (UPp : u * Rabs (B2R sl * B2R dx) <= u * (P + (412 / 100 * (u * P) + 65 / 64 * n))) by (apply Rmult_le_compat_l; lra).
    assert (Ep' : Rabs (B2R p - S * X) <= 519 / 100 * (u * P) + 104 / 100 * n + eta).
    { replace (B2R p - S * X) with ((B2R p - B2R sl * B2R dx) + (B2R sl * B2R dx - S * X)) by ring.
      eapply Rle_trans; [apply abs_add; [exact Em|exact Ep]|]. lra. }
    assert (Es' : Rabs (B2R y0 + B2R p - L) <= 519 / 100 * (u * P) + 104 / 100 * n + eta).
    { unfold L. replace (B2R y0 + B2R p - (B2R y0 + S * X)) with (B2R p - S * X) by ring. exact Ep'. }
    assert (Bs : Rabs (B2R y0 + B2R p) <= Rabs L + (519 / 100 * (u * P) + 104 / 100 * n + eta)).
    { replace (B2R y0 + B2R p) with (L + (B2R y0 + B2R p - L)) by ring. apply abs_add; [apply Rle_refl|exact Es']. }
    destruct (add_ok _ _ Hp He y0 p F0 Fm) as (F & V); [apply rnd_lt; lra|].
    split; [exact F|]. rewrite V.
    assert (Er := rnd_rel (B2R y0 + B2R p) ltac:(apply on_grid_add; apply on_grid_fl)).
    set (q := B2R y0 + B2R p) in *.
    replace (rnd q - L) with ((rnd q - q) + (q - L)) by ring.
    eapply Rle_trans; [apply abs_add; [exact Er|exact Es']|].
    assert (u * Rabs q <= u * (Rabs L + (519 / 100 * (u * P) + 104 / 100 * n + eta))) by (apply Rmult_le_compat_l; lra).
    replace (2 * eta * (1 + AX)) with (2 * eta + 2 * n) by (unfold n; ring). lra.
Qed.
End Node.

(** ** Rectilinear grids *)
Section Rect.
Variables (c : cfg) (grid vals : list fl) (g : rect1 fl) (x : fl).
Notation a := (list_axis (map B2R grid)).
Notation vr := (map B2R vals).
Notation X := (B2R x).
Hypothesis Hu : u <= / 64.
Hypothesis Hn : (zlen vals <= isize_max)%Z.
Hypothesis Hi : increasing_grid o grid.
Hypothesis Hm : Forall (@moderate prec emax) grid.
Hypothesis Fx : fin x.
Hypothesis Hg : c1_new grid vals = Ok g.
Notation d := (fzero o).

Lemma rect1_axis : increasing_axis a /\ npts a = zlen grid /\ (forall j, coord a j = B2R (nth (Z.to_nat j) grid d)).
Proof using Hi Hm.
  split; [|split].
  - apply list_axis_inc. apply (increasing_B2R prec emax Hp He); auto.
    eapply Forall_impl; [|exact Hm]. intros v (Fv & _). exact Fv.
  - apply zlen_map.
  - intros j. unfold list_axis. cbn [coord]. apply (nth_B2R prec emax Hp He).
Qed.

Lemma rect1_sample : let i := clipped_cell o x grid in
  zlen grid = zlen vals /\ (2 <= zlen grid)%Z /\ in_cell a X i /\
  small (nth (Z.to_nat i) grid d) /\ small (nth (Z.to_nat (i + 1)) grid d) /\
  exists e, c1_at o c g x = Ok (mkSample (nth (Z.to_nat i) grid d) (nth (Z.to_nat i) vals d)
      (nth (Z.to_nat (i + 1)) grid d) (nth (Z.to_nat (i + 1)) vals d) e) /\ extrap_of o x grid e.
Proof using Hn Hi Hm Fx Hg.
  intros i. destruct (c1_sample o c grid vals g x d (@BOps_transitive _ _ Hp He) Hi Hn Hg) as (Ez & Hz & B & S).
  fold i in B, S. assert (ZL : Z.of_nat (length grid) = zlen grid) by reflexivity.
  destruct rect1_axis as (Ia & Na & Ca). destruct B as (Ri & B1 & B2).
  split; [exact Ez|]. split; [exact Hz|].
  assert (Sa : small (nth (Z.to_nat i) grid d)) by (apply (Forall_nth_lt d Hm); lia).
  assert (Sb : small (nth (Z.to_nat (i + 1)) grid d)) by (apply (Forall_nth_lt d Hm); lia).
  split; [|split; [exact Sa|split; [exact Sb|exact S]]].
  unfold in_cell. rewrite Na, !Ca. split; [lia|]. split.
  - destruct (Z.eq_dec i 0); [auto|right]. left. apply (ltb_fin Hp He); [apply Sa|exact Fx|].
    apply B1; [lia|]. apply nth_error_nth'. lia.
  - destruct (Z.eq_dec i (zlen grid - 2)); [auto|right].
    assert (Q := B2 (nth (Z.to_nat (i + 1)) grid d) ltac:(lia) ltac:(apply nth_error_nth'; lia)).
    apply Rnot_lt_le. intros C. apply (ltb_fin Hp He) in C; [congruence|apply Sb|exact Fx].
Qed.

Theorem linear1_rect A S W rho : small x -> bounded_values prec emax A vals -> slopes_within S a vr ->
  widths_within W a -> 0 <= rho -> near_axis rho a X -> S <= bpow radix2 (emax - 2) ->
  2 * A + S * rho <= bpow radix2 (emax - 2) ->
  exists y, linear1 o c (c1_at o c g) x = Ok y /\ fin y /\
    Rabs (B2R y - lin1 a X (val_at vr)) <= line_error prec emax A S W rho.
Proof using All.
  intros Sx ((A0 & A1) & Hv) HS HW R0 HR BS BA. assert (U := u_pos). assert (N := eta_pos).
  destruct rect1_axis as (Ia & Na & Ca). destruct rect1_sample as (Ez & Hz & Ci & Sa & Sb & e & Ea & _).
  set (i := clipped_cell o x grid) in *. assert (ZL : Z.of_nat (length grid) = zlen grid) by reflexivity.
  assert (ZV : Z.of_nat (length vals) = zlen vals) by reflexivity.
  assert (Ri : (0 <= i <= zlen grid - 2)%Z) by (rewrite <- Na; apply Ci).
  unfold linear1. rewrite Ea. cbn [bind]. eexists. split; [reflexivity|].
  set (ga := nth (Z.to_nat i) grid d) in *. set (gb := nth (Z.to_nat (i + 1)) grid d) in *.
  set (y0 := nth (Z.to_nat i) vals d). set (y1 := nth (Z.to_nat (i + 1)) vals d).
  assert (Cga : coord a i = B2R ga) by apply Ca. assert (Cgb : coord a (i + 1) = B2R gb) by apply Ca.
  assert (V0 : val_at vr i = B2R y0) by apply (nth_B2R prec emax Hp He).
  assert (V1 : val_at vr (i + 1) = B2R y1) by apply (nth_B2R prec emax Hp He).
  destruct (Forall_nth_lt d Hv (k := Z.to_nat i) ltac:(lia)) as (F0 & B0). fold y0 in F0, B0.
  destruct (Forall_nth_lt d Hv (k := Z.to_nat (i + 1)) ltac:(lia)) as (F1 & B1). fold y1 in F1, B1.
  assert (Hab : B2R ga < B2R gb). { rewrite <- Cga, <- Cgb. apply Ia; rewrite ?Na; lia. }
  assert (HSi := HS i ltac:(rewrite Na; lia)). rewrite V0, V1, Cga, Cgb in HSi.
  assert (HWi := HW i ltac:(rewrite Na; lia)). rewrite Cga, Cgb in HWi.
  set (D := B2R y1 - B2R y0) in *. set (H := B2R gb - B2R ga) in *. set (V := X - B2R ga).
  assert (PH : 0 < H) by (unfold H; lra).
  assert (LV : lin1 a X (val_at vr) = B2R y0 + D / H * V).
  { rewrite (@lin1_weights a Ia ltac:(rewrite Na; lia) X (val_at vr) i Ci). unfold local_coord.
    rewrite V0, V1, Cga, Cgb. fold H V. unfold D. field. lra. }
  assert (SL : Rabs (D / H) <= S).
  { unfold Rdiv. rewrite Rabs_mult, (Rabs_pos_eq (/ H)) by (left; apply Rinv_0_lt_compat; auto).
    apply Rmult_le_reg_r with H; auto. rewrite Rmult_assoc, Rinv_l, Rmult_1_r by lra. exact HSi. }
  assert (S0 : 0 <= S) by (eapply Rle_trans; [apply Rabs_pos|exact SL]).
  assert (SR0 : 0 <= S * rho) by (apply Rmult_le_pos; auto).
  assert (DD : Rabs D <= 2 * A).
  { unfold D. apply Rabs_le_inv in B0. apply Rabs_le_inv in B1. apply Rabs_le. lra. }
  (* size of the increment and of the distance, in the three cases *)
  assert (Size : Rabs (D / H * V) <= 2 * A + S * rho /\ Rabs (B2R y0 + D / H * V) <= A + S * rho /\ Rabs V <= W + rho).
  { destruct (Rle_or_lt (B2R ga) X) as [La|La]; [destruct (Rle_or_lt X (B2R gb)) as [Lb|Lb]|].
    - assert (T : 0 <= V / H <= 1).
      { split; [apply Rmult_le_pos; [unfold V; lra|left; apply Rinv_0_lt_compat; auto]|].
        apply Rmult_le_reg_r with H; auto. unfold Rdiv. rewrite Rmult_assoc, Rinv_l, Rmult_1_r by lra. unfold V, H. lra. }
      replace (D / H * V) with (V / H * D) by (field; lra). set (t := V / H) in *.
      split; [|split].
      + rewrite Rabs_mult, (Rabs_pos_eq t) by lra. assert (t * Rabs D <= 1 * Rabs D) by (apply Rmult_le_compat_r; [apply Rabs_pos|lra]). lra.
      + replace (B2R y0 + t * D) with ((1 - t) * B2R y0 + t * B2R y1) by (unfold D; ring).
        apply Rle_trans with ((1 - t) * A + t * A); [|lra].
        apply abs_add; apply abs_mul; auto; rewrite Rabs_pos_eq; lra.
      + rewrite Rabs_pos_eq; unfold V, H in *; lra.
    - assert (Ei : i = (npts a - 2)%Z).
      { destruct Ci as (_ & _ & [C|C]); auto. rewrite Cgb in C. lra. }
      assert (Rb : 0 <= X - B2R gb <= rho).
      { destruct HR as (_ & HR). replace (npts a - 1)%Z with (i + 1)%Z in HR by lia. rewrite Cgb in HR. lra. }
      assert (EV : D / H * V = D + D / H * (X - B2R gb)) by (unfold V, H in *; field; lra).
      assert (Q : Rabs (D / H * (X - B2R gb)) <= S * rho).
      { apply abs_mul; auto. rewrite Rabs_pos_eq; lra. }
      rewrite EV. split; [apply abs_add; auto|]. split.
      + replace (B2R y0 + (D + D / H * (X - B2R gb))) with (B2R y1 + D / H * (X - B2R gb)) by (unfold D; ring). apply abs_add; auto.
      + rewrite Rabs_pos_eq; unfold V, H in *; lra.
    - assert (Ei : i = 0%Z).
      { destruct Ci as (_ & [C|C] & _); auto. rewrite Cga in C. lra. }
      assert (Ra : 0 <= B2R ga - X <= rho).
      { destruct HR as (HR & _). rewrite <- Ei, Cga in HR. lra. }
      assert (Q : Rabs (D / H * V) <= S * rho).
      { apply abs_mul; auto. unfold V. rewrite Rabs_left1; lra. }
      split; [lra|]. split; [apply abs_add; auto|]. rewrite Rabs_left1; unfold V, H in *; lra. }
  destruct Size as (Z1 & Z2 & Z3).
  destruct (line_err Hu c ga gb y0 y1 x e Sa Sb Sx Hab F0 F1 ltac:(lra) ltac:(lra)) as (F & E).
  { fold D H. lra. } { fold D H V. lra. }
  split; [exact F|]. rewrite LV. fold D H V in E. eapply Rle_trans; [exact E|].
  unfold line_error, roundoff, underflow.
  apply Rplus_le_compat; [apply Rmult_le_compat_l; lra|]. apply Rmult_le_compat_l; lra.
Qed.

(** Inside the grid LinearHoldLast1D is Linear1D, bit for bit. *)
Theorem hold1_rect_inside : coord a 0 <= X <= coord a (npts a - 1) ->
  hold_last1 o c (c1_at o c g) x = linear1 o c (c1_at o c g) x.
Proof using Hn Hi Hm Fx Hg.
  intros In. destruct rect1_axis as (Ia & Na & Ca). destruct rect1_sample as (Ez & Hz & _ & _ & _ & e & Ea & Xe).
  assert (ZL : Z.of_nat (length grid) = zlen grid) by reflexivity.
  apply (extrap_facts o _ _ _ d Hz) in Xe. unfold hold_last1, linear1. rewrite Ea. cbn [bind sextrap].
  assert (M0 : small (nth 0 grid d)) by (apply (Forall_nth_lt d Hm); lia).
  assert (Ml : small (last grid d)) by (rewrite last_nth; apply (Forall_nth_lt d Hm); lia).
  rewrite Na, !Ca in In. replace (Z.to_nat (zlen grid - 1)) with (length grid - 1)%nat in In by lia. rewrite <- last_nth in In.
  change (Z.to_nat 0) with 0%nat in In.
  destruct e; [reflexivity| |]; exfalso.
  - apply (ltb_fin Hp He) in Xe; [lra|exact Fx|apply M0].
  - destruct Xe as (_ & Xe). apply (ltb_fin Hp He) in Xe; [lra|apply Ml|exact Fx].
Qed.

(** Nearest1D. *)
Lemma dist_le (p q : fl) : small p -> small q -> small x ->
  (fle o (fabs o (fsub o x p)) (fabs o (fsub o x q)) = true -> Rabs (X - B2R p) <= (1 + 3 * u) * Rabs (X - B2R q)) /\
  (fle o (fabs o (fsub o x p)) (fabs o (fsub o x q)) = false -> Rabs (X - B2R q) < Rabs (X - B2R p)).
Proof using Hu Fx.
  intros (Fp & Sp) (Fq & Sq) (_ & Sx). assert (U := u_pos).
  assert (X1 : bpow radix2 (emax - 1) = 2 * bpow radix2 (emax - 2)).
  { replace (emax - 1)%Z with (1 + (emax - 2))%Z by lia. rewrite bpow_plus. reflexivity. }
  destruct (sub_ok _ _ Hp He x p Fx Fp) as (F1 & V1).
  { apply rnd_lt. apply Rabs_le_inv in Sp. apply Rabs_le_inv in Sx. apply Rabs_le. lra. }
  destruct (sub_ok _ _ Hp He x q Fx Fq) as (F2 & V2).
  { apply rnd_lt. apply Rabs_le_inv in Sq. apply Rabs_le_inv in Sx. apply Rabs_le. lra. }
  assert (E1 := rnd_rel (X - B2R p) ltac:(apply on_grid_sub; apply on_grid_fl)). rewrite <- V1 in E1.
  assert (E2 := rnd_rel (X - B2R q) ltac:(apply on_grid_sub; apply on_grid_fl)). rewrite <- V2 in E2.
  set (dp := fsub o x p) in *. set (dq := fsub o x q) in *.
  assert (G1 : fin (fabs o dp)) by (cbn [fabs BOps]; rewrite is_finite_Babs; auto).
  assert (G2 : fin (fabs o dq)) by (cbn [fabs BOps]; rewrite is_finite_Babs; auto).
  assert (W1 : B2R (fabs o dp) = Rabs (B2R dp)) by (cbn [fabs BOps]; apply B2R_Babs).
  assert (W2 : B2R (fabs o dq) = Rabs (B2R dq)) by (cbn [fabs BOps]; apply B2R_Babs).
  assert (P0 := Rabs_pos (X - B2R p)). assert (Q0 := Rabs_pos (X - B2R q)).
  split; intros C.
  - apply leb_fin in C; auto. rewrite W1, W2 in C.
    assert (L1 : Rabs (X - B2R p) - u * Rabs (X - B2R p) <= Rabs (B2R dp)).
    { apply Rabs_le_inv in E1. unfold Rabs in *. repeat destruct (Rcase_abs _); lra. }
    assert (L2 : Rabs (B2R dq) <= Rabs (X - B2R q) + u * Rabs (X - B2R q)).
    { replace (B2R dq) with ((X - B2R q) + (B2R dq - (X - B2R q))) by ring. apply abs_add; [apply Rle_refl|exact E2]. }
    set (P := Rabs (X - B2R p)) in *. set (Q := Rabs (X - B2R q)) in *.
    assert (K : P * (1 - u) <= Q * (1 + u)) by lra.
    apply Rmult_le_reg_r with (1 - u); [lra|]. eapply Rle_trans; [exact K|].
    replace ((1 + 3 * u) * Q * (1 - u)) with (Q * ((1 + 3 * u) * (1 - u))) by ring. apply Rmult_le_compat_l; [exact Q0|]. nra.
  - apply Rnot_le_lt. intros L. assert (M : fle o (fabs o dp) (fabs o dq) = true); [|congruence].
    apply leb_fin; auto. rewrite W1, W2, V1, V2.
    change (Rabs (round radix2 (FLT_exp emin prec) ZnearestE (X - B2R p)) <= Rabs (round radix2 (FLT_exp emin prec) ZnearestE (X - B2R q))).
    rewrite <- !(round_NE_abs radix2 (FLT_exp emin prec)). exact (@rnd_le prec emax Hp _ _ L).
Qed.

Theorem nearest1_rect : small x ->
  exists i, nearest1 o (c1_at o c g) x = Ok (nth (Z.to_nat i) vals d) /\
    nearest_up_to_factor (1 + 3 * u) a X i.
Proof using All.
  intros Sx. assert (U := u_pos).
  destruct rect1_axis as (Ia & Na & Ca). destruct rect1_sample as (Ez & Hz & Ci & Sa & Sb & e & Ea & _).
  set (i := clipped_cell o x grid) in *. assert (ZL : Z.of_nat (length grid) = zlen grid) by reflexivity.
  assert (Ri : (0 <= i <= zlen grid - 2)%Z) by (rewrite <- Na; apply Ci).
  unfold nearest1. rewrite Ea. cbn [bind sx0 sx1 sy0 sy1].
  destruct (dist_le _ _ Sa Sb Sx) as (O1 & O2).
  set (ga := nth (Z.to_nat i) grid d) in *. set (gb := nth (Z.to_nat (i + 1)) grid d) in *.
  assert (Cga : coord a i = B2R ga) by apply Ca. assert (Cgb : coord a (i + 1) = B2R gb) by apply Ca.
  rewrite <- Cga, <- Cgb in O1, O2.
  assert (Far : forall j, (0 <= j < npts a)%Z ->
    Rabs (X - coord a i) <= Rabs (X - coord a j) \/ Rabs (X - coord a (i + 1)) <= Rabs (X - coord a j)).
  { intros j Hj. destruct Ci as (_ & C1 & C2). destruct (Z_le_gt_dec j i) as [J|J].
    - left. destruct (Z.eq_dec j i) as [-> |]; [lra|].
      assert (coord a j < coord a i) by (apply Ia; lia).
      destruct C1 as [C1|C1]; [lia|]. rewrite !Rabs_pos_eq by lra. lra.
    - right. destruct (Z.eq_dec j (i + 1)) as [-> |]; [lra|].
      assert (coord a (i + 1) < coord a j) by (apply Ia; lia).
      destruct C2 as [C2|C2]; [lia|]. rewrite !Rabs_left1 by lra. lra. }
  assert (Mix : forall p q r, 0 <= r -> p <= r \/ q <= r -> p <= (1 + 3 * u) * q -> p <= (1 + 3 * u) * r).
  { intros p q r D0 [D|D] Q; [|apply Rle_trans with (1 := Q); apply Rmult_le_compat_l; lra].
    assert (0 <= u * r) by (apply Rmult_le_pos; lra). lra. }
  destruct (fle o _ _) eqn:E.
  - exists i. split; [reflexivity|]. split; [lia|]. intros j Hj.
    exact (Mix _ _ _ (Rabs_pos _) (Far j Hj) (O1 eq_refl)).
  - exists (i + 1)%Z. split; [reflexivity|]. split; [lia|]. intros j Hj.
    refine (Mix _ _ _ (Rabs_pos _) (proj1 (or_comm _ _) (Far j Hj)) _).
    specialize (O2 eq_refl). assert (Q := Rabs_pos (X - coord a i)).
    assert (0 <= u * Rabs (X - coord a i)) by (apply Rmult_le_pos; lra). lra.
Qed.
End Rect.

(** ** Regular grids *)
Section Reg.
Variables (c : cfg) (start h x : fl) (vals : list fl) (g : regular1 fl) (kappa : R).
Notation n := (zlen vals).
Notation w := (B2R h).
Notation a := (mkAxis n (fun i => B2R start + w * IZR i)).
Notation vr := (map B2R vals).
Notation X := (B2R x).
Notation E := (u * kappa).
Notation d := (fzero o).
Notation T := (reg_pos prec emax start h x).
Hypothesis Hn : (2 <= n <= isize_max)%Z.
Hypothesis Ph : 0 < w.
Hypothesis Hax : axis_within prec emax kappa start h n.
Hypothesis Fx : fin x.
Hypothesis HE : 504 * E <= 1.
Hypothesis Hprec : (prec <= 64)%Z.
Hypothesis Hx : coord a 0 <= X <= coord a (npts a - 1).
Hypothesis Hg : r1_new o c start h vals = Ok g.

Lemma reg1_hyps : fin start /\ fin h /\ (2 <= n)%Z /\ Rabs (B2R start) <= kappa * w /\
  Rabs (B2R start + w * IZR (n - 1)) <= kappa * w /\ kappa * w <= bpow radix2 (emax - 3) /\
  B2R start <= X <= B2R start + w * IZR (n - 1).
Proof using Fx Hax Hn Hx.
  destruct Hax as (F1 & F2 & H1 & H2 & H3). cbn [coord npts] in Hx. change (IZR 0) with 0 in Hx. repeat split; auto; lra || lia.
Qed.

Lemma reg1_axis : increasing_axis a /\ (2 <= npts a)%Z.
Proof using All. split; [apply reg_axis_inc; auto|cbn [npts]; lia]. Qed.

(** What the cell search finds. *)
Lemma reg1_sample : exists i,
  let m := fadd o start (fmul o h (uf o i)) in
  let stop := fadd o start (fmul o h (uf o (n - 1))) in
  (0 <= i <= n - 2)%Z /\ - (6 * E) <= T - IZR i <= 1 + 6 * E /\
  r1_at o c g x = Ok (mkSample m (nth (Z.to_nat i) vals d) (fadd o m h) (nth (Z.to_nat (i + 1)) vals d)
     (if flt o stop x then ExtrapHigh else Inside)) /\
  (flt o stop x = true -> i = (n - 2)%Z /\ IZR (n - 1) - 31 / 10 * E <= T).
Proof using All.
  destruct reg1_hyps as (Fs & Fh & H2 & Hs & Ht & Hk & Hx').
  destruct (cell_error prec emax Hp He start h x n kappa Fs Fh Fx Ph H2 Hs Ht Hk HE Hx' Hprec) as (q & Eq & Fq & Er & Ei).
  destruct (cell_ok prec emax Hp He start h x n kappa Fs Fh Fx Ph H2 Hs Ht Hk HE Hx' Hprec) as (i & Ec & Ri & Rt).
  assert (Ie : Z.min (Z.max (Zfloor (B2R q)) 0) (n - 2) = i).
  { unfold reg_cell in Ec. rewrite <- Eq, Ei in Ec. cbn [ok_or bind] in Ec. congruence. }
  set (stop := fadd o start (fmul o h (uf o (n - 1)))).
  assert (Eg : g = mkR1 start stop h vals).
  { unfold r1_new in Hg. rewrite usize_sub_ok in Hg by (unfold isize_max, two64 in *; lia). cbn [bind] in Hg.
    unfold stop, uf. destruct (of_usize o (n - 1)) as [mf|]; cbn [ok_or bind] in Hg; [congruence|discriminate]. }
  exists i. cbv zeta. split; [exact Ri|]. split; [exact Rt|].
  assert (ZV : Z.of_nat (length vals) = n) by reflexivity.
  assert (NL : flt o x start = false).
  { destruct (flt o x start) eqn:C; auto. apply (ltb_fin Hp He) in C; auto. lra. }
  assert (T1 : T <= IZR (n - 1)) by apply (T_range prec emax Hp He start h x n kappa Fs Fh Fx Ph H2 Hs Ht Hk HE Hx' Hprec).
  fold stop.
  assert (EI : r1_index o c g x = Ok (i, if flt o stop x then ExtrapHigh else Inside)).
  { subst g. unfold r1_index. cbn [r1_start r1_step r1_stop r1_vals]. rewrite <- Eq, Ei. cbn [ok_or bind].
    rewrite usize_sub_ok by (unfold isize_max, two64 in *; lia). cbn [bind].
    rewrite as_isize_small by lia. rewrite Ie, NL. unfold as_usize. rewrite Z.mod_small by (unfold isize_max, two64 in *; lia). reflexivity. }
  split.
  - unfold r1_at. rewrite EI. cbn [bind]. subst g. cbn [r1_start r1_step r1_vals]. unfold uf.
    destruct (@of_usize_some prec emax Hp He i) as (fi & Ef). rewrite Ef. cbn [ok_or bind].
    rewrite (idx_nth _ d) by lia. cbn [bind].
    rewrite usize_add_ok by (unfold isize_max, two64 in *; lia). cbn [bind].
    rewrite (idx_nth _ d) by lia. reflexivity.
  - intros Hs'.
    destruct (node_error_any prec emax Hp He start h x n kappa Fs Fh Fx Ph H2 Hs Ht Hk HE Hx' Hprec false (n - 1)%Z ltac:(lia)) as (Fm & Em).
    fold stop in Fm, Em. apply (ltb_fin Hp He) in Hs'; auto.
    assert (XT := T_eq prec emax Hp He start h x n kappa Fs Fh Fx Ph H2 Hs Ht Hk HE Hx' Hprec).
    assert (Q : IZR (n - 1) - 31 / 10 * E <= T).
    { apply Rmult_le_reg_l with w; auto. apply Rabs_le_inv in Em. lra. }
    split; [|exact Q].
    (* the cell is the last one: the product of step and count is at most x - start *)
    destruct (kappa_half prec emax Hp He start h x n kappa Fs Fh Fx Ph H2 Hs Ht Hk HE Hx' Hprec) as (K1 & K2).
    assert (SB := size_bound prec emax Hp He start h x n kappa Fs Fh Fx Ph H2 Hs Ht Hk HE Hx' Hprec).
    assert (Rt2 := proj2 Rt). rewrite minus_IZR in Q, T1.
    assert (E0 : 0 <= E) by (apply Rmult_le_pos; [left; apply u_pos|lra]).
    assert (L : (n - 3 < i)%Z).
    { apply lt_IZR. rewrite minus_IZR. lra. }
    lia.
Qed.

(** The two computed nodes. *)
Lemma reg1_nodes i : (0 <= i <= n - 2)%Z ->
  let m := fadd o start (fmul o h (uf o i)) in let m1 := fadd o m h in
  small m /\ small m1 /\ Rabs (B2R m - (B2R start + w * IZR i)) <= 31 / 10 * (E * w) /\
  Rabs (B2R m1 - (B2R m + w)) <= 105 / 100 * (E * w).
Proof using All.
  intros Ri m m1. destruct reg1_hyps as (Fs & Fh & H2 & Hs & Ht & Hk & Hx').
  destruct (node_error_any prec emax Hp He start h x n kappa Fs Fh Fx Ph H2 Hs Ht Hk HE Hx' Hprec false i ltac:(lia)) as (Fm & Em).
  fold m in Fm, Em.
  destruct (kappa_half prec emax Hp He start h x n kappa Fs Fh Fx Ph H2 Hs Ht Hk HE Hx' Hprec) as (K1 & K2).
  destruct (u_small prec emax Hp He start h x n kappa Fs Fh Fx Ph H2 Hs Ht Hk HE Hx' Hprec) as (U2 & U64).
  assert (C0 := coord_size prec emax Hp He start h x n kappa Fs Fh Fx Ph H2 Hs Ht Hk HE Hx' Hprec i ltac:(lia)).
  assert (C1 := coord_size prec emax Hp He start h x n kappa Fs Fh Fx Ph H2 Hs Ht Hk HE Hx' Hprec (i + 1)%Z ltac:(lia)).
  rewrite plus_IZR in C1. assert (U := u_pos). assert (E0 : 0 <= E) by lra.
  assert (EW0 : 0 <= E * w) by (apply Rmult_le_pos; lra).
  assert (KW : 0 <= kappa * w) by (apply Rmult_le_pos; lra).
  assert (EKW : E * w <= / 64 * (kappa * w)) by (rewrite Rmult_assoc; apply Rmult_le_compat_r; lra).
  assert (B2 : bpow radix2 (emax - 2) = 2 * bpow radix2 (emax - 3)).
  { replace (emax - 2)%Z with (1 + (emax - 3))%Z by lia. rewrite bpow_plus. reflexivity. }
  assert (B1 : bpow radix2 (emax - 1) = 4 * bpow radix2 (emax - 3)).
  { replace (emax - 1)%Z with (2 + (emax - 3))%Z by lia. rewrite bpow_plus. reflexivity. }
  assert (Bm : Rabs (B2R m) <= kappa * w + 31 / 10 * (E * w)).
  { replace (B2R m) with ((B2R start + w * IZR i) + (B2R m - (B2R start + w * IZR i))) by ring. apply abs_add; auto. }
  assert (Bm1 : Rabs (B2R m + w) <= kappa * w + 31 / 10 * (E * w)).
  { replace (B2R m + w) with ((B2R start + w * (IZR i + 1)) + (B2R m - (B2R start + w * IZR i))) by ring. apply abs_add; auto. }
  destruct (add_ok _ _ Hp He m h Fm Fh) as (F1 & V1); [apply rnd_lt; lra|].
  fold m1 in F1, V1. assert (E1 := rnd_rel (B2R m + w) ltac:(apply on_grid_add; apply on_grid_fl)). rewrite <- V1 in E1.
  assert (UEW : u * (E * w) <= / 64 * (E * w)) by (apply Rmult_le_compat_r; lra).
  assert (E2 : Rabs (B2R m1 - (B2R m + w)) <= 105 / 100 * (E * w)).
  { eapply Rle_trans; [exact E1|].
    assert (Q : u * Rabs (B2R m + w) <= u * (kappa * w + 31 / 10 * (E * w))) by (apply Rmult_le_compat_l; lra).
    replace (u * (kappa * w + 31 / 10 * (E * w))) with (E * w + 31 / 10 * (u * (E * w))) in Q by ring. lra. }
  split; [split; [exact Fm|lra]|]. split; [split; [exact F1|]|split; [exact Em|exact E2]].
  replace (B2R m1) with ((B2R m + w) + (B2R m1 - (B2R m + w))) by ring. eapply Rle_trans; [apply abs_add; [exact Bm1|exact E2]|]. lra.
Qed.

(** Linear1D and LinearHoldLast1D inside the grid. *)
Theorem linear1_reg A S : bounded_values prec emax A vals -> slopes_within S a vr -> S <= bpow radix2 (emax - 3) ->
  (exists y, linear1 o c (r1_at o c g) x = Ok y /\ fin y /\
     Rabs (B2R y - lin1 a X (val_at vr)) <= regular_line_error prec emax kappa A w) /\
  (exists y, hold_last1 o c (r1_at o c g) x = Ok y /\ fin y /\
     Rabs (B2R y - lin1 a X (val_at vr)) <= regular_line_error prec emax kappa A w).
Proof using All.
  intros ((A0 & A1) & Hv) HS BS. assert (N := eta_pos). assert (U := u_pos).
  destruct reg1_hyps as (Fs & Fh & H2 & Hs & Ht & Hk & Hx').
  destruct reg1_sample as (i & Ri & Rt & Ea & Hi).
  destruct (reg1_nodes i Ri) as (Sm & Sm1 & Em & Em1).
  destruct (kappa_half prec emax Hp He start h x n kappa Fs Fh Fx Ph H2 Hs Ht Hk HE Hx' Hprec) as (K1 & K2).
  destruct (u_small prec emax Hp He start h x n kappa Fs Fh Fx Ph H2 Hs Ht Hk HE Hx' Hprec) as (U2 & U64).
  assert (XT := T_eq prec emax Hp He start h x n kappa Fs Fh Fx Ph H2 Hs Ht Hk HE Hx' Hprec).
  assert (T1 := T_range prec emax Hp He start h x n kappa Fs Fh Fx Ph H2 Hs Ht Hk HE Hx' Hprec).
  destruct reg1_axis as (Ia & Na).
  set (m := fadd o start (fmul o h (uf o i))) in *. set (m1 := fadd o m h) in *.
  set (y0 := nth (Z.to_nat i) vals d) in *. set (y1 := nth (Z.to_nat (i + 1)) vals d) in *.
  assert (ZV : Z.of_nat (length vals) = n) by reflexivity.
  assert (V0 : val_at vr i = B2R y0) by apply (nth_B2R prec emax Hp He).
  assert (V1 : val_at vr (i + 1) = B2R y1) by apply (nth_B2R prec emax Hp He).
  destruct (Forall_nth_lt d Hv (k := Z.to_nat i) ltac:(lia)) as (F0 & B0). fold y0 in F0, B0.
  destruct (Forall_nth_lt d Hv (k := Z.to_nat (i + 1)) ltac:(lia)) as (F1 & B1). fold y1 in F1, B1.
  assert (E0 : 0 <= E) by lra. assert (EW0 : 0 <= E * w) by (apply Rmult_le_pos; lra).
  assert (EW : E * w <= / 504 * w) by (apply Rmult_le_compat_r; lra).
  assert (EA0 : 0 <= E * A) by (apply Rmult_le_pos; lra).
  assert (B2 : bpow radix2 (emax - 2) = 2 * bpow radix2 (emax - 3)).
  { replace (emax - 2)%Z with (1 + (emax - 3))%Z by lia. rewrite bpow_plus. reflexivity. }
  assert (B3 : bpow radix2 (emax - 3) = 2 * bpow radix2 (emax - 4)).
  { replace (emax - 3)%Z with (1 + (emax - 4))%Z by lia. rewrite bpow_plus. reflexivity. }
  set (t := T - IZR i) in *.
  set (D := B2R y1 - B2R y0). set (H := B2R m1 - B2R m). set (V := X - B2R m).
  assert (EH : Rabs (H - w) <= 105 / 100 * (E * w)).
  { replace (H - w) with (B2R m1 - (B2R m + w)) by (unfold H; ring). exact Em1. }
  assert (HH : 997 / 1000 * w <= H) by (apply Rabs_le_inv in EH; lra).
  assert (PH : 0 < H) by lra.
  assert (EV : Rabs (V - w * t) <= 31 / 10 * (E * w)).
  { replace (V - w * t) with (- (B2R m - (B2R start + w * IZR i))) by (unfold V, t; rewrite XT at 1; ring). rewrite Rabs_Ropp. exact Em. }
  assert (At : Rabs t <= 1012 / 1000) by (apply Rabs_le; lra).
  assert (Et : Rabs (V / H - t) <= 42 / 10 * E).
  { replace (V / H - t) with (((V - w * t) + (w - H) * t) / H) by (field; lra).
    unfold Rdiv at 1. rewrite Rabs_mult, (Rabs_pos_eq (/ H)) by (left; apply Rinv_0_lt_compat; lra).
    apply Rmult_le_reg_r with H; [lra|]. rewrite Rmult_assoc, Rinv_l, Rmult_1_r by lra.
    assert (Q : Rabs (V - w * t + (w - H) * t) <= 31 / 10 * (E * w) + 105 / 100 * (E * w) * (1012 / 1000)).
    { apply abs_add; auto. apply abs_mul; auto. rewrite Rabs_minus_sym. exact EH. }
    assert (42 / 10 * E * (997 / 1000 * w) <= 42 / 10 * E * H) by (apply Rmult_le_compat_l; lra). lra. }
  set (t' := V / H) in *. assert (VT : V = t' * H) by (unfold t'; field; lra).
  assert (At' : Rabs t' <= 103 / 100).
  { replace t' with (t + (t' - t)) by ring. eapply Rle_trans; [apply abs_add; [exact At|exact Et]|]. lra. }
  assert (DD : Rabs D <= 2 * A).
  { unfold D. apply Rabs_le_inv in B0. apply Rabs_le_inv in B1. apply Rabs_le. lra. }
  assert (HSi := HS i ltac:(cbn [npts]; lia)). rewrite V0, V1 in HSi. cbn [coord] in HSi. rewrite plus_IZR in HSi.
  replace (B2R start + w * (IZR i + 1) - (B2R start + w * IZR i)) with w in HSi by ring. fold D in HSi.
  assert (S0 : 0 <= S).
  { apply Rmult_le_reg_r with w; auto. rewrite Rmult_0_l. eapply Rle_trans; [apply Rabs_pos|exact HSi]. }
  assert (SL : Rabs (D / H) <= bpow radix2 (emax - 2)).
  { unfold Rdiv. rewrite Rabs_mult, (Rabs_pos_eq (/ H)) by (left; apply Rinv_0_lt_compat; auto).
    apply Rmult_le_reg_r with H; auto. rewrite Rmult_assoc, Rinv_l, Rmult_1_r by lra.
    eapply Rle_trans; [exact HSi|]. apply Rle_trans with (2 * S * H).
    - assert (2 * S * (997 / 1000 * w) <= 2 * S * H) by (apply Rmult_le_compat_l; lra).
      assert (0 <= S * w) by (apply Rmult_le_pos; lra). lra.
    - apply Rmult_le_compat_r; lra. }
  assert (EP : D / H * V = t' * D) by (unfold t'; field; lra).
  assert (BP : Rabs (t' * D) <= 206 / 100 * A).
  { eapply Rle_trans; [apply abs_mul; [exact At'|exact DD]|]. lra. }
  assert (Sx : small x).
  { split; auto. apply Rabs_le_inv in Hs. apply Rabs_le_inv in Ht. apply Rabs_le. lra. }
  assert (Lin : forall e, fin (line_through o c (mkSample m y0 m1 y1 e) x) /\
    Rabs (B2R (line_through o c (mkSample m y0 m1 y1 e) x) - lin1 a X (val_at vr)) <= regular_line_error prec emax kappa A w).
  { intros e. destruct (line_err U64 c m m1 y0 y1 x e Sm Sm1 Sx ltac:(unfold H in PH; lra) F0 F1 ltac:(lra) ltac:(lra)) as (F & R).
    { fold D H. exact SL. } { fold D H V. rewrite EP. lra. }
    split; [exact F|]. fold D H V in R. rewrite EP in R.
    assert (BL : Rabs (B2R y0 + t' * D) <= 306 / 100 * A).
    { eapply Rle_trans; [apply abs_add; [exact B0|exact BP]|]. lra. }
    assert (BV : Rabs V <= 103 / 100 * w).
    { replace V with (w * t + (V - w * t)) by ring.
      eapply Rle_trans; [apply abs_add; [apply abs_mul; [rewrite Rabs_pos_eq by lra; apply Rle_refl|exact At]|exact EV]|]. lra. }
    assert (P := piece_error prec emax Hp He start h x n kappa Fs Fh Fx Ph H2 Hs Ht Hk HE Hx' Hprec i (val_at vr) A Ri Rt).
    assert (P' : Rabs (B2R y0 + t * D - lin1 a X (val_at vr)) <= 4 * (6 * E) * A).
    { fold t in P. rewrite V0, V1 in P. apply P. intros j Hj. unfold val_at. rewrite (nth_B2R prec emax Hp He).
      apply (Forall_nth_lt d Hv). lia. }
    assert (Q : Rabs (B2R y0 + t' * D - (B2R y0 + t * D)) <= 42 / 10 * E * (2 * A)).
    { replace (B2R y0 + t' * D - (B2R y0 + t * D)) with ((t' - t) * D) by ring. apply abs_mul; auto. }
    set (r := B2R (line_through o c (mkSample m y0 m1 y1 e) x)) in *.
    replace (r - lin1 a X (val_at vr)) with ((r - (B2R y0 + t' * D)) + ((B2R y0 + t' * D - (B2R y0 + t * D)) + (B2R y0 + t * D - lin1 a X (val_at vr)))) by ring.
    eapply Rle_trans; [apply abs_add; [exact R|apply abs_add; [exact Q|exact P']]|].
    unfold regular_line_error, roundoff, underflow.
    assert (G1 : u * (Rabs (B2R y0 + t' * D) + 6 * Rabs (t' * D)) <= 2 * E * (1542 / 100 * A)).
    { apply Rmult_le_compat; try lra. assert (0 <= Rabs (B2R y0 + t' * D)) by apply Rabs_pos.
      assert (0 <= Rabs (t' * D)) by apply Rabs_pos. lra. }
    assert (G2 : 2 * eta * (1 + Rabs V) <= 2 * eta * (1 + 103 / 100 * w)) by (apply Rmult_le_compat_l; lra).
    assert (0 <= eta * w) by (apply Rmult_le_pos; lra). lra. }
  split.
  - unfold linear1. rewrite Ea. cbn [bind]. eexists. split; [reflexivity|]. apply Lin.
  - unfold hold_last1. rewrite Ea. cbn [bind sextrap].
    destruct (flt o (fadd o start (fmul o h (uf o (n - 1)))) x) eqn:C.
    + destruct (Hi eq_refl) as (Ei & Tl). cbn [sy1]. eexists. split; [reflexivity|]. split; [exact F1|].
      assert (It : 1 - 31 / 10 * E <= t <= 1).
      { unfold t. replace (IZR i) with (IZR (n - 1) - 1) by (rewrite Ei, !minus_IZR; ring). lra. }
      rewrite (@lin1_weights a Ia Na X (val_at vr) i).
      2:{ apply (in_reg_cell prec emax Hp He start h x n kappa Fs Fh Fx Ph H2 Hs Ht Hk HE Hx' Hprec i Ri). fold t. lra. }
      rewrite (reg_local prec emax Hp He start h x n kappa Fs Fh Fx Ph H2 Hs Ht Hk HE Hx' Hprec i). fold t. rewrite V0, V1.
      replace (B2R y1 - ((1 - t) * B2R y0 + t * B2R y1)) with ((1 - t) * D) by (unfold D; ring).
      apply Rle_trans with (31 / 10 * E * (2 * A)).
      * apply abs_mul; auto. apply Rabs_le. lra.
      * unfold regular_line_error, roundoff, underflow. assert (0 <= eta * w) by (apply Rmult_le_pos; lra). lra.
    + eexists. split; [reflexivity|]. apply Lin.
Qed.

(** Left1D, Right1D and Nearest1D inside the grid. *)
Theorem hold1_reg :
  (exists i, left1 (r1_at o c g) x = Ok (nth (Z.to_nat i) vals d) /\ left_node_up_to (6 * E * w) a X i) /\
  (exists i, right1 (r1_at o c g) x = Ok (nth (Z.to_nat i) vals d) /\ right_node_up_to (6 * E * w) a X i).
Proof using All.
  destruct reg1_hyps as (Fs & Fh & H2 & Hs & Ht & Hk & Hx').
  destruct reg1_sample as (i & Ri & Rt & Ea & Hi).
  destruct (kappa_half prec emax Hp He start h x n kappa Fs Fh Fx Ph H2 Hs Ht Hk HE Hx' Hprec) as (K1 & K2).
  assert (XT := T_eq prec emax Hp He start h x n kappa Fs Fh Fx Ph H2 Hs Ht Hk HE Hx' Hprec).
  assert (U := u_pos). assert (E0 : 0 <= E) by (apply Rmult_le_pos; lra).
  assert (Low : forall j e, IZR j - e <= T -> B2R start + w * IZR j <= X + e * w).
  { intros j e L. rewrite XT. assert (w * (IZR j - e) <= w * T) by (apply Rmult_le_compat_l; lra). lra. }
  assert (High : forall j e, T <= IZR j + e -> X - e * w <= B2R start + w * IZR j).
  { intros j e L. rewrite XT. assert (w * T <= w * (IZR j + e)) by (apply Rmult_le_compat_l; lra). lra. }
  unfold left1, right1. rewrite Ea. cbn [bind sextrap].
  assert (Bi : left_node_up_to (6 * E * w) a X i /\ right_node_up_to (6 * E * w) a X (i + 1)).
  { split; (split; [cbn [npts]; lia|]); cbn [npts coord]; (split; [|right]).
    - apply Low. lra.
    - apply High. rewrite plus_IZR. lra.
    - apply High. rewrite plus_IZR. lra.
    - replace (i + 1 - 1)%Z with i by lia. apply Low. lra. }
  destruct (flt o (fadd o start (fmul o h (uf o (n - 1)))) x) eqn:C; cbn [sy0 sy1].
  - destruct (Hi eq_refl) as (Ei & Tl). split; exists (i + 1)%Z; (split; [reflexivity|]); [|apply Bi].
    split; [cbn [npts]; lia|]. cbn [npts coord]. split; [|left; lia].
    apply Low. rewrite Ei. replace (n - 2 + 1)%Z with (n - 1)%Z by lia. lra.
  - split; [exists i|exists (i + 1)%Z]; (split; [reflexivity|]); apply Bi.
Qed.

Theorem nearest1_reg :
  exists i, nearest1 o (r1_at o c g) x = Ok (nth (Z.to_nat i) vals d) /\ nearest_up_to (16 * E * w) a X i.
Proof using All.
  destruct reg1_hyps as (Fs & Fh & H2 & Hs & Ht & Hk & Hx').
  destruct reg1_sample as (i & Ri & Rt & Ea & Hi).
  destruct (reg1_nodes i Ri) as (Sm & Sm1 & Em & Em1).
  destruct (kappa_half prec emax Hp He start h x n kappa Fs Fh Fx Ph H2 Hs Ht Hk HE Hx' Hprec) as (K1 & K2).
  destruct (u_small prec emax Hp He start h x n kappa Fs Fh Fx Ph H2 Hs Ht Hk HE Hx' Hprec) as (U2 & U64).
  assert (XT := T_eq prec emax Hp He start h x n kappa Fs Fh Fx Ph H2 Hs Ht Hk HE Hx' Hprec).
  assert (U := u_pos). assert (E0 : 0 <= E) by lra. assert (EW0 : 0 <= E * w) by (apply Rmult_le_pos; lra).
  assert (EW : E * w <= / 504 * w) by (apply Rmult_le_compat_r; lra).
  assert (B2 : bpow radix2 (emax - 2) = 2 * bpow radix2 (emax - 3)).
  { replace (emax - 2)%Z with (1 + (emax - 3))%Z by lia. rewrite bpow_plus. reflexivity. }
  assert (Sx : small x).
  { split; auto. apply Rabs_le_inv in Hs. apply Rabs_le_inv in Ht. assert (0 < bpow radix2 (emax - 3)) by apply bpow_gt_0. apply Rabs_le. lra. }
  set (m := fadd o start (fmul o h (uf o i))) in *. set (m1 := fadd o m h) in *.
  destruct (dist_le x U64 Fx m m1 Sm Sm1 Sx) as (O1 & O2).
  set (t := T - IZR i) in *.
  assert (D0 : Rabs (X - B2R m - w * t) <= 31 / 10 * (E * w)).
  { replace (X - B2R m - w * t) with (- (B2R m - (B2R start + w * IZR i))) by (unfold t; rewrite XT at 1; ring). rewrite Rabs_Ropp. exact Em. }
  assert (D1 : Rabs (X - B2R m1 - w * (t - 1)) <= 415 / 100 * (E * w)).
  { replace (X - B2R m1 - w * (t - 1)) with ((X - B2R m - w * t) - (B2R m1 - (B2R m + w))) by ring.
    unfold Rminus at 1. eapply Rle_trans; [apply abs_add; [exact D0|rewrite Rabs_Ropp; exact Em1]|]. lra. }
  assert (WT : 0 <= w * (t + 6 * E) /\ w * t <= w + 6 * (E * w)).
  { split; [apply Rmult_le_pos; lra|]. replace (w + 6 * (E * w)) with (w * (1 + 6 * E)) by ring. apply Rmult_le_compat_l; lra. }
  assert (Q1 : Rabs (X - B2R m1) <= 103 / 100 * w).
  { apply Rabs_le_inv in D1. apply Rabs_le. lra. }
  assert (UQ : u * Rabs (X - B2R m1) <= 2 * E * (103 / 100 * w)).
  { apply Rmult_le_compat; try lra. apply Rabs_pos. }
  assert (Di : forall j, X - (B2R start + w * IZR j) = w * (T - IZR j)) by (intros; rewrite XT at 1; ring).
  assert (DI : X - (B2R start + w * IZR i) = w * t) by apply Di.
  assert (DI1 : X - (B2R start + w * IZR (i + 1)) = w * (t - 1)) by (rewrite Di, plus_IZR; unfold t; ring).
  assert (JR : forall j, (0 <= j < n)%Z -> w * t <= X - (B2R start + w * IZR j) \/ X - (B2R start + w * IZR j) <= w * (t - 1)).
  { intros j Hj. rewrite Di. destruct (Z_le_gt_dec j i) as [J|J].
    - left. apply Rmult_le_compat_l; [lra|]. assert (IZR j <= IZR i) by (apply IZR_le; auto). unfold t. lra.
    - right. apply Rmult_le_compat_l; [lra|]. assert (IZR i + 1 <= IZR j) by (rewrite <- plus_IZR; apply IZR_le; lia). unfold t. lra. }
  unfold nearest1. rewrite Ea. cbn [bind sx0 sx1 sy0 sy1]. clearbody m m1 t.
  apply Rabs_le_inv in D0. apply Rabs_le_inv in D1.
  destruct (fle o _ _) eqn:C; [exists i|exists (i + 1)%Z]; (split; [reflexivity|]); (split; [cbn [npts]; lia|]);
    intros j Hj; cbn [npts] in Hj; cbn [coord]; specialize (JR j Hj); [rewrite DI; specialize (O1 eq_refl); clear O2|rewrite DI1; specialize (O2 eq_refl); clear O1];
    set (Y := X - (B2R start + w * IZR j)) in *; set (P := X - B2R m) in *; set (Q := X - B2R m1) in *.
  - assert (O3 : Rabs P <= Rabs Q + 3 * (2 * E * (103 / 100 * w))) by lra.
    clear O1 UQ Q1. unfold Rabs in O3 |- *. repeat destruct (Rcase_abs _); destruct JR; lra.
  - clear UQ Q1. unfold Rabs in O2 |- *. repeat destruct (Rcase_abs _); destruct JR; lra.
Qed.
End Reg.
End B.
