(** Integer grids in the Python function interpn. *)
From Coq Require Import Reals Lia Lra PeanoNat ZifyNat ZifyBool.
From Flocq Require Import Core.Core IEEE754.BinarySingleNaN.
From Verif Require Import Base Ops FInst ModelCore ModelLinear ModelNearest ModelCubic ModelPython ModelSerial
  Spec SpecPython SpecSerial SpecInts PyProofs SerialProofs SerialProofs2 FLemmas FProofs.
Unset Implicit Arguments.
Open Scope Z_scope.

(** ** Differences of integer grids *)
Lemma int_diff_nth g i a b : nth_error g i = Some a -> nth_error g (S i) = Some b -> nth_error (int_diff g) i = Some (b - a).
Proof.
  unfold int_diff. revert i. induction g as [|x g IH]; intros i Ha Hb; [destruct i; discriminate Ha|].
  destruct g as [|y g]; [destruct i as [|[|i]]; discriminate Hb|]. destruct i as [|i].
  - simpl in *. congruence.
  - cbn [tl combine map nth_error]. apply IH; auto.
Qed.
Lemma int_diff_length g : length (int_diff g) = (length g - 1)%nat.
Proof. unfold int_diff. rewrite map_length, combine_length. destruct g; cbn [tl length]; lia. Qed.
Lemma even_ints_iff g d0 : (2 <= length g)%nat -> nth_error (int_diff g) 0 = Some d0 ->
  (forallb (fun d => d =? d0) (int_diff g) = true <-> even_ints g).
Proof.
  intros L E0. destruct g as [|x0 [|x1 g]]; simpl in L; try lia. set (G := x0 :: x1 :: g) in *.
  assert (D0 : d0 = x1 - x0) by (simpl in E0; congruence).
  rewrite forallb_forall. split.
  - intros H i a0 a1 a b E1 E2 Ea Eb. injection E1 as <-. injection E2 as <-.
    assert (Q := H (b - a) (nth_error_In _ _ (int_diff_nth G i a b Ea Eb))). lia.
  - intros H d Hd. apply In_nth_error in Hd as (i & Hi).
    assert (Li : (i < length G - 1)%nat) by (rewrite <- int_diff_length; apply nth_error_Some; congruence).
    destruct (nth_error G i) as [a|] eqn:Ea; [|apply nth_error_None in Ea; lia].
    destruct (nth_error G (S i)) as [b|] eqn:Eb; [|apply nth_error_None in Eb; lia].
    rewrite (int_diff_nth G i a b Ea Eb) in Hi. injection Hi as <-.
    assert (Q := H i x0 x1 a b eq_refl eq_refl Ea Eb). lia.
Qed.
Lemma int_regular_spec gs acc : Forall (fun g => (2 <= length g)%nat) gs ->
  exists b, grids_regular_from acc (map NpInt gs) = Ret b /\ (b = true <-> acc = true /\ Forall even_ints gs).
Proof.
  revert acc. induction gs as [|g gs IH]; intros acc H; cbn [map grids_regular_from].
  - exists acc. split; auto. split; [auto|tauto].
  - apply Forall_cons_iff in H as (L & H). destruct acc.
    + cbn [grid_regular]. destruct (nth_error (int_diff g) 0) as [d0|] eqn:E0.
      2:{ apply nth_error_None in E0. rewrite int_diff_length in E0. lia. }
      rewrite (py_get_some _ _ _ E0). cbn [py_bind].
      destruct (IH (forallb (fun d => d =? d0) (int_diff g)) H) as (b & E & Hb).
      exists b. split; [exact E|]. rewrite Hb, (even_ints_iff g d0 L E0), Forall_cons_iff. tauto.
    + destruct (IH false H) as (b & E & Hb). exists b. split; [exact E|]. rewrite Hb. intuition discriminate.
Qed.

Lemma int_starts d gs : Forall (fun g => (2 <= length g)%nat) gs ->
  py_map (grid_start (format_of d)) (map NpInt gs) = Ret (map (fun g => int_num d (nth 0 g 0)) gs).
Proof.
  intros Hg. rewrite py_map_map. apply py_map_ok. intros g Hi. pose proof (proj1 (Forall_forall _ _) Hg g Hi) as L. cbv beta in L.
  cbn [grid_start]. rewrite (py_get_nth g 0 0) by lia. reflexivity.
Qed.
Lemma int_steps d gs : Forall (fun g => (2 <= length g)%nat) gs ->
  py_map (grid_step (format_of d)) (map NpInt gs) = Ret (map (fun g => int_num d (nth 1 g 0 - nth 0 g 0)) gs).
Proof.
  intros Hg. rewrite py_map_map. apply py_map_ok. intros g Hi. pose proof (proj1 (Forall_forall _ _) Hg g Hi) as L. cbv beta in L.
  cbn [grid_step]. rewrite (py_get_nth g 0 0), (py_get_nth g 1 0) by lia. reflexivity.
Qed.
(** ** The call *)
Section Grids.
Variables (c : cfg) (d : dtype) (obs : list (ndarray (num d))) (gs : list (list Z))
  (vals o0 : ndarray (num d)) (lin assume : bool) (atol : f64)
  (Ho : hd_error obs = Some o0) (Lo : (length obs <= 8)%nat)
  (Hg : Forall (fun g => (2 <= length g)%nat) gs).
Let xs : list (list (num d)) := map nd_data obs.
Let zeros : list (num d) := repeat (fzero (ops d)) (length (nd_data o0)).
Let call method := typed_interpn c (map (tnd d) obs) (map int_line gs) (tnd d vals) method None lin assume false atol.

Lemma int_first_obs : typed_choose_out None (map (tnd d) obs) = Ret (mkT (nd_shape o0) (typed d zeros), false).
Proof using All.
  unfold typed_choose_out. destruct obs as [|x l]; [discriminate Ho|]. injection Ho as ->.
  cbn [map py_get nth_error py_bind tnd t_shape t_data]. rewrite zeros_typed. reflexivity.
Qed.
Lemma int_data : map t_data (map int_line gs) = map NpInt gs.
Proof. rewrite map_map. reflexivity. Qed.
Lemma int_obs_data : map t_data (map (tnd d) obs) = map (typed d) xs.
Proof. unfold xs. rewrite !map_map. reflexivity. Qed.
Lemma int_sizes : map (fun g => Z.of_nat (np_size g)) (map NpInt gs) = map zlen gs.
Proof. rewrite map_map. reflexivity. Qed.

Lemma int_regular_case : assume = true \/ Forall even_ints gs ->
  let dims := map zlen gs in
  let starts := map (fun g => int_num d (nth 0 g 0)) gs in
  let steps := map (fun g => int_num d (nth 1 g 0 - nth 0 g 0)) gs in
  let shaped r := (py_bind (seen r) (fun x => Ret (mkT (nd_shape o0) x)), @None nparray) in
  call "linear" = shaped (mlr_interpn (ops d) c dims starts steps (nd_data vals) xs zeros) /\
  call "nearest" = shaped (nr_interpn (ops d) c dims starts steps (nd_data vals) xs zeros) /\
  call "cubic" = shaped (mcr_interpn (ops d) c dims starts steps (nd_data vals) lin xs zeros).
Proof using All.
  intros He dims starts steps shaped.
  assert (R : (if assume then Ret true else grids_regular_from true (map NpInt gs)) = Ret true).
  { destruct assume; [reflexivity|]. destruct He as [He|He]; [discriminate He|].
    destruct (int_regular_spec gs true Hg) as (b & -> & Hb). f_equal. apply Hb. auto. }
  assert (K : forall method fam r, method_family method = Ret fam ->
    regular_raw c (format_of d) fam lin dims starts steps (nd_data vals) xs zeros = raw_result r ->
    call method = shaped r).
  { intros method fam r Hm Hr. unfold call, typed_interpn. rewrite int_first_obs. cbn [py_bind].
    rewrite int_data, int_obs_data. change (t_data (tnd d vals)) with (NpFloat (stored d (nd_data vals))).
    cbn [py_bind]. rewrite dtype_stored, R. cbn [py_bind]. rewrite (int_starts d gs Hg), (int_steps d gs Hg). cbn [py_bind].
    rewrite int_sizes, Hm. cbn [py_bind t_data].
    match goal with |- context [regular_call ?a1 ?a2 ?a3 ?a4 ?a5 ?a6 ?a7 ?a8 ?a9 ?a10] =>
      change (regular_call a1 a2 a3 a4 a5 a6 a7 a8 a9 a10) with
        (regular_call c (format_of d) fam lin dims (typed d starts) (typed d steps) (typed d (nd_data vals))
           (map (typed d) xs) (typed d zeros)) end.
    rewrite (call_regular_typed c d fam lin dims starts steps (nd_data vals) xs zeros) by apply dims_zlen.
    rewrite Hr. unfold shaped. destruct r as [[u|msg|] l]; reflexivity. }
  assert (U := unpack_le _ xs). unfold xs at 1 in U. rewrite map_length in U. specialize (U Lo). unfold num in U.
  assert (D : dims_ok dims = true) by apply dims_zlen.
  repeat split; eapply K; try reflexivity; cbn [regular_raw];
    unfold raw_linear_regular, raw_nearest_regular, raw_cubic_regular; rewrite D, U; reflexivity.
Qed.
Lemma int_irregular_case : assume = false -> ~ Forall even_ints gs ->
  forall method, In method ["linear"; "nearest"; "cubic"]%string -> call method = (Raise TypeError, None).
Proof using All.
  intros Ha He method Hm.
  assert (R : (if assume then Ret true else grids_regular_from true (map NpInt gs)) = Ret false).
  { rewrite Ha. destruct (int_regular_spec gs true Hg) as (b & -> & Hb).
    f_equal. destruct b; [|reflexivity]. exfalso. apply He. apply Hb. reflexivity. }
  assert (V : views (np_view (format_of d)) (map NpInt gs) = None).
  { destruct gs as [|g l]; [exfalso; apply He; constructor|]. reflexivity. }
  assert (Fm : exists fam, method_family method = Ret fam) by (destruct Hm as [<-|[<-|[<-|[]]]]; eexists; reflexivity).
  destruct Fm as (fam & Fm).
  unfold call, typed_interpn. rewrite int_first_obs. cbn [py_bind].
  rewrite int_data, int_obs_data. change (t_data (tnd d vals)) with (NpFloat (stored d (nd_data vals))).
  cbn [py_bind]. rewrite dtype_stored, R. cbn [py_bind]. rewrite Fm. cbn [py_bind t_data].
  unfold rectilinear_call. rewrite V. reflexivity.
Qed.
End Grids.

(** ** Integers as floating-point numbers *)
Section Exact.
Variables prec emax : Z.
Context (Hp : Prec_gt_0 prec) (He : Prec_lt_emax prec emax).
Notation o := (BOps Hp He).
Notation lit z := (binary_normalize prec emax Hp He mode_NE z 0 false).
Lemma lit_short z : Z.abs z <= 2 ^ prec -> is_finite (lit z) = true /\ B2R (lit z) = IZR z.
Proof using Hp He.
  intros H. assert (P := Hp). assert (E := He). unfold Prec_gt_0, Prec_lt_emax in P, E.
  assert (V : F2R (Float radix2 z 0) = IZR z) by (unfold F2R; simpl; ring).
  assert (A : (Rabs (IZR z) <= bpow radix2 prec)%R).
  { rewrite <- abs_IZR, <- IZR_Zpower by lia. apply IZR_le. exact H. }
  assert (G : generic_format radix2 (SpecFloat.fexp prec emax) (IZR z)).
  { change (SpecFloat.fexp prec emax) with (FLT_exp (3 - emax - prec) prec). apply generic_format_abs_inv. destruct (Rle_lt_or_eq_dec _ _ A) as [L|L].
    - rewrite <- abs_IZR. apply generic_format_FLT. exists (Float radix2 (Z.abs z) 0); [unfold F2R; simpl; ring| |cbn [Fexp]; lia].
      cbn [Fnum]. rewrite Z.abs_involutive. apply lt_IZR. rewrite <- abs_IZR in L. change 2 with (radix_val radix2). rewrite IZR_Zpower by lia. exact L.
    - rewrite L. apply generic_format_bpow. unfold FLT_exp. lia. }
  assert (Q := binary_normalize_correct prec emax Hp He mode_NE z 0 false). rewrite V in Q.
  cbv zeta in Q. rewrite (round_generic radix2 (SpecFloat.fexp prec emax) (round_mode mode_NE) _ G) in Q. rewrite Rlt_bool_true in Q.
  - destruct Q as (Q1 & Q2 & _). auto.
  - eapply Rle_lt_trans; [exact A|]. apply bpow_lt. lia.
Qed.
Lemma lit_diff a b : Z.abs a <= 2 ^ prec -> Z.abs b <= 2 ^ prec -> Z.abs (b - a) <= 2 ^ prec -> a <> b -> fsub o (lit b) (lit a) = lit (b - a).
Proof using Hp He.
  intros Ha Hb Hd Hn. assert (P := Hp). assert (E := He). unfold Prec_gt_0, Prec_lt_emax in P, E.
  destruct (lit_short a Ha) as (Fa & Va). destruct (lit_short b Hb) as (Fb & Vb). destruct (lit_short _ Hd) as (Fd & Vd).
  assert (G : rnd prec emax (IZR (b - a)) = IZR (b - a)).
  { rewrite <- Vd. apply rnd_id. }
  assert (X : (Rabs (IZR (b - a)) < bpow radix2 emax)%R).
  { rewrite <- abs_IZR. apply Rle_lt_trans with (IZR (2 ^ prec)); [apply IZR_le; exact Hd|].
    change 2 with (radix_val radix2). rewrite IZR_Zpower by lia. apply bpow_lt. lia. }
  destruct (@sub_spec prec emax Hp He (lit b) (lit a) Fb Fa) as [(Fs & Vs)|(_ & K)];
    rewrite Va, Vb, <- minus_IZR, G in *; [|exfalso; lra]. rewrite <- Vd in Vs.
    assert (N : IZR (b - a) <> 0%R) by (intro Q; apply eq_IZR_R0 in Q; lia).
    apply B2R_inj; [apply is_finite_strict_B2R; rewrite Vs, Vd; exact N|apply is_finite_strict_B2R; rewrite Vd; exact N|exact Vs].
Qed.
End Exact.

Lemma int_num_diff d a b : short_int d a -> short_int d b -> short_int d (b - a) -> a <> b ->
  fsub (ops d) (int_num d b) (int_num d a) = int_num d (b - a).
Proof. destruct d; [apply (lit_diff 24 128 Hp32 He32)|apply (lit_diff 53 1024 Hp64 He64)]. Qed.
Lemma int_num_real d z : short_int d z -> same_number (ops d) (int_num d z) (int_num d z).
Proof.
  intros H. destruct d; [destruct (lit_short 24 128 Hp32 He32 z H) as (F & _)|destruct (lit_short 53 1024 Hp64 He64 z H) as (F & _)].
  - split; apply leb_fin; auto; lra.
  - split; apply leb_fin; auto; lra.
Qed.

(** ** Integer grids and the same grids as floating-point numbers *)
Lemma nth_int d g i : (i < length g)%nat -> nth i (map (int_num d) g) (fzero (ops d)) = int_num d (nth i g 0).
Proof.
  intros H. rewrite (nth_indep _ _ (int_num d 0)) by (rewrite map_length; exact H). apply map_nth.
Qed.
Lemma ints_fit_pair d g i a b : ints_fit d g -> nth_error g i = Some a -> nth_error g (S i) = Some b ->
  b - a = nth 1 g 0 - nth 0 g 0 /\ fsub (ops d) (int_num d b) (int_num d a) = int_num d (nth 1 g 0 - nth 0 g 0).
Proof.
  intros (L & E & S & N & P) Ha Hb.
  assert (Q : b - a = nth 1 g 0 - nth 0 g 0).
  { apply (E i _ _ a b); auto; apply nth_error_nth'; lia. }
  split; [exact Q|]. rewrite <- Q. rewrite Forall_forall in S.
  apply int_num_diff; [apply S; eapply nth_error_In; eauto|apply S; eapply nth_error_In; eauto|rewrite Q; exact P|lia].
Qed.
Lemma ints_fit_even d g : ints_fit d g -> evenly_spaced (ops d) (map (int_num d) g).
Proof.
  intros H i a0 a1 a b E0 E1 Ea Eb. rewrite nth_error_map in E0, E1, Ea, Eb.
  destruct (nth_error g 0) as [z0|] eqn:Z0; [|discriminate E0]. destruct (nth_error g 1) as [z1|] eqn:Z1; [|discriminate E1].
  destruct (nth_error g i) as [za|] eqn:Za; [|discriminate Ea]. destruct (nth_error g (S i)) as [zb|] eqn:Zb; [|discriminate Eb].
  injection E0 as <-. injection E1 as <-. injection Ea as <-. injection Eb as <-.
  rewrite (proj2 (ints_fit_pair d g i za zb H Za Zb)), (proj2 (ints_fit_pair d g 0 z0 z1 H Z0 Z1)).
  apply int_num_real. apply H.
Qed.
Lemma conv_same1 d x : conv d d x = x.
Proof. assert (H := conv_same d [x]). injection H as H. exact H. Qed.
Lemma ints_like_floats c d gs obs vals l method out lin assume cb atol :
  t_data vals = typed d l -> Forall (ints_fit d) gs ->
  typed_interpn c obs (map int_line gs) vals method out lin assume cb atol =
  typed_interpn c obs (map (float_line d) gs) vals method out lin assume cb atol.
Proof.
  intros Hv Hf. assert (H2 : Forall (fun g => (2 <= length g)%nat) gs).
  { apply Forall_forall. intros g Hg. rewrite Forall_forall in Hf. apply (Hf g Hg). }
  assert (H3 : Forall (fun g => (2 <= length g)%nat) (map (map (int_num d)) gs)).
  { rewrite Forall_map. apply Forall_forall. intros g Hg. rewrite map_length. rewrite Forall_forall in H2. apply (H2 g Hg). }
  set (ga := map NpInt gs). set (gb := map (typed d) (map (map (int_num d)) gs)).
  assert (Da : map t_data (map int_line gs) = ga) by (unfold ga; rewrite map_map; reflexivity).
  assert (Db : map t_data (map (float_line d) gs) = gb) by (unfold gb; rewrite !map_map; reflexivity).
  assert (Ra : grids_regular_from true ga = Ret true).
  { destruct (int_regular_spec gs true H2) as (b & Eb & Hb). unfold ga. rewrite Eb. f_equal. apply Hb. split; [reflexivity|].
    eapply Forall_impl; [|exact Hf]. intros g Hg. apply Hg. }
  assert (Rb : grids_regular_from true gb = Ret true).
  { unfold gb. rewrite regular_typed. destruct (check_regular_from_spec (ops d) _ true H3) as (b & -> & Hb). f_equal. apply Hb.
    split; [reflexivity|]. rewrite Forall_map. eapply Forall_impl; [|exact Hf]. intros g Hg. apply ints_fit_even. exact Hg. }
  assert (Sa := int_starts d gs H2). assert (Ta := int_steps d gs H2).
  assert (Sb : py_map (grid_start (format_of d)) gb = py_map (grid_start (format_of d)) ga).
  { unfold ga. rewrite Sa. unfold gb. rewrite !py_map_map. apply py_map_ok. intros g Hg. rewrite Forall_forall in H2. specialize (H2 g Hg). cbv beta in H2.
    assert (E : grid_start (format_of d) (typed d (map (int_num d) g)) = py_do x <- py_get (map (int_num d) g) 0 ; Ret (conv d d x)) by (destruct d; reflexivity).
    rewrite E, (py_get_nth _ 0 (fzero (ops d))) by (rewrite map_length; lia). cbn [py_bind]. rewrite nth_int by lia. f_equal. apply conv_same1. }
  assert (Tb : py_map (grid_step (format_of d)) gb = py_map (grid_step (format_of d)) ga).
  { unfold ga. rewrite Ta. unfold gb. rewrite !py_map_map. apply py_map_ok. intros g Hg. rewrite Forall_forall in H2, Hf. specialize (H2 g Hg). cbv beta in H2.
    assert (E : grid_step (format_of d) (typed d (map (int_num d) g)) =
      py_do b <- py_get (map (int_num d) g) 1 ; py_do a <- py_get (map (int_num d) g) 0 ; Ret (conv d d (fsub (ops d) b a))) by (destruct d; reflexivity).
    rewrite E, (py_get_nth _ 0 (fzero (ops d))), (py_get_nth _ 1 (fzero (ops d))) by (rewrite map_length; lia). cbn [py_bind].
    rewrite !nth_int by lia.
    rewrite (proj2 (ints_fit_pair d g 0 (nth 0 g 0) (nth 1 g 0) (Hf g Hg) ltac:(apply nth_error_nth'; lia) ltac:(apply nth_error_nth'; lia))).
    f_equal. apply conv_same1. }
  assert (Lb : map (fun g => Z.of_nat (np_size g)) gb = map (fun g => Z.of_nat (np_size g)) ga).
  { unfold ga, gb. rewrite !map_map. apply map_ext. intros g. destruct d; cbn; rewrite map_length; reflexivity. }
  unfold typed_interpn. rewrite Da, Db, Hv. unfold typed. cbn [py_bind]. rewrite dtype_stored.
  destruct (typed_choose_out out obs) as [[out1 own]|e]; cbn [py_bind]; [|reflexivity].
  assert (Qa : (if assume then Ret true else grids_regular_from true ga) = Ret true) by (destruct assume; auto).
  assert (Qb : (if assume then Ret true else grids_regular_from true gb) = Ret true) by (destruct assume; auto).
  rewrite Qa, Qb. cbn [py_bind]. rewrite Sb, Tb, Lb. reflexivity.
Qed.

(** ** Integer values *)
Lemma int_values_refused c obs grids vals l method out lin assume cb atol : t_data vals = NpInt l ->
  (exists e, typed_interpn c obs grids vals method out lin assume cb atol = (Raise e, option_map t_data out)) /\
  (out = None -> obs <> [] -> typed_interpn c obs grids vals method out lin assume cb atol =
     (Raise (AssertionError "`interpn` defined only for float32 and float64 data"), None)).
Proof.
  intros Hv. unfold typed_interpn. rewrite Hv. split.
  - destruct (typed_choose_out out obs) as [[out1 own]|e]; cbn [py_bind]; eexists; reflexivity.
  - intros -> Ho. destruct obs as [|[sh [[x|x]|x]] obs]; [congruence|reflexivity|reflexivity|reflexivity].
Qed.
