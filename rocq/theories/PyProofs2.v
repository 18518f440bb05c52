(** Proofs about the Python package: bounds checks, output buffers, wrapper classes. *)
From Coq Require Import Reals Lra PeanoNat Bool Sorted ZifyBool ZifyNat.
From Flocq Require Import Core IEEE754.BinarySingleNaN.
From Verif Require Import Base Ops ModelCore ModelUtils ModelLinear ModelNearest ModelCubic ModelPython.
From Verif Require Import Spec CoreLemmas GenLemmas GenProofs GenProofs2 GenProofs3.
From Verif Require Import RInst FInst SpecReal R1D RChar OrderLemmas FLemmas UtilProofs SpecPython PyProofs.
Unset Implicit Arguments.
Open Scope Z_scope.

Section Gen.
Context {F : Type} (o : Ops F) (c : cfg).
Notation z := (fzero o).

(** ** C43 *)
Lemma bounds_other_dims obs grids vals method o0 lin assume atol :
  hd_error obs = Some o0 -> (length obs <= 8)%nat -> (length grids <= 8)%nat ->
  Forall (fun g => (2 <= length (nd_data g))%nat) grids -> length grids <> 1%nat ->
  fst (py_interpn o c obs grids vals method None lin assume true atol) = Raise (AssertionError msg_dim).
Proof.
  intros Ho L8 G8 Hg Hn. assert (Gl := gs_len Hg).
  assert (R : exists b, (if assume then Ret true else check_regular o (map nd_data grids)) = Ret b).
  { destruct assume; eauto. destruct (check_regular_from_spec o (map nd_data grids) true Gl) as (b & E & Hb). exists b. exact E. }
  destruct R as (b & R). unfold py_interpn, choose_out. rewrite (get_obs0 Ho). cbn [py_bind].
  rewrite R. cbn [py_bind]. destruct (reg_data o _ z Gl) as (E1 & E2).
  assert (U : unpack_ok (map nd_data obs) = true) by (unfold unpack_ok; rewrite map_length; lia).
  assert (U' : unpack_ok (map nd_data grids) = true) by (unfold unpack_ok; rewrite map_length; lia).
  destruct b.
  - rewrite E1. cbn [py_bind]. rewrite E2. cbn [py_bind].
    unfold py_check_bounds, raw_check_bounds_regular. rewrite dims_ok_lens, U. cbn [negb].
    rewrite check_reg_error by (right; rewrite !map_length; simpl; lia). reflexivity.
  - cbn [py_bind]. unfold py_check_bounds, raw_check_bounds_rectilinear. rewrite U, U'. cbn [andb negb].
    rewrite check_rect_error by (right; left; rewrite !map_length; simpl; lia). reflexivity.
Qed.

(** One axis: the flag the library computes decides. *)
Lemma bounds_one_dim x g vals method lin assume atol : usize_converts o ->
  (2 <= length (nd_data g))%nat -> zlen (nd_data g) < two64 ->
  let call cb := py_interpn o c [x] [g] vals method None lin assume cb atol in
  exists flag : bool,
    (if flag then fst (call true) = Raise ValueError else call true = call false) /\
    ((assume = true \/ evenly_spaced o (nd_data g)) -> exists m, of_usize o (zlen (nd_data g) - 1) = Some m /\
       let first := nth 0 (nd_data g) z in
       let lst := fadd o first (fmul o (fsub o (nth 1 (nd_data g) z) first) m) in
       flag = violates o (fmin o first lst) (fmax o first lst) atol (nd_data x)) /\
    (assume = false -> ~ evenly_spaced o (nd_data g) ->
       flag = violates o (nth 0 (nd_data g) z) (nth (length (nd_data g) - 1) (nd_data g) z) atol (nd_data x)).
Proof.
  intros Hu Lg Hz call.
  assert (Hg : Forall (fun g => (2 <= length (nd_data g))%nat) [g]) by auto.
  assert (Gl := gs_len Hg).
  assert (R : exists b, (if assume then Ret true else check_regular o (map nd_data [g])) = Ret b /\
    (b = true <-> assume = true \/ evenly_spaced o (nd_data g))).
  { destruct assume; [exists true; tauto|].
    destruct (check_regular_from_spec o (map nd_data [g]) true Gl) as (b & E & Hb). exists b. split; [exact E|].
    rewrite Hb. simpl. rewrite Forall_cons_iff. intuition; discriminate. }
  destruct R as (b & R & Hb). destruct (reg_data o _ z Gl) as (E1 & E2).
  unfold call, py_interpn, choose_out. cbn [py_get nth_error py_bind]. 
  rewrite R. cbn [py_bind]. destruct b.
  - rewrite E1. cbn [py_bind]. rewrite E2. cbn [py_bind].
    unfold py_check_bounds, raw_check_bounds_regular. rewrite dims_ok_lens. cbn [unpack_ok map length Nat.leb negb].
    destruct (@check_reg_any F o c (map zlen (map nd_data [g])) (firsts z (map nd_data [g])) (spacings o z (map nd_data [g]))
      [nd_data x] atol [false] z Hu) as (flags & E & Lf & Hf); auto.
    { repeat constructor; unfold zlen in *; lia. }
    cbn [map length] in Lf. destruct flags as [|flag [|? ?]]; try discriminate Lf. exists flag.
    cbn [map firsts spacings] in E |- *. rewrite E. cbn [raw_result py_bind existsb]. split; [|split].
    + destruct flag; simpl; reflexivity.
    + intros _. destruct (Hf 0%nat ltac:(simpl; lia)) as (m & Em & Hv). exists m. split; [exact Em|]. exact Hv.
    + intros A Ne. exfalso. destruct (proj1 Hb eq_refl); [congruence|auto].
  - cbn [py_bind].
    unfold py_check_bounds, raw_check_bounds_rectilinear. cbn [unpack_ok map length Nat.leb andb negb].
    destruct (@check_rect_any F o (map nd_data [g]) [nd_data x] atol [false] z) as (flags & E & Lf & Hf); auto.
    { cbn [map]. repeat constructor. lia. }
    cbn [map length] in Lf. destruct flags as [|flag [|? ?]]; try discriminate Lf. exists flag.
    cbn [map] in E. rewrite E. cbn [raw_result py_bind existsb]. split; [|split].
    + destruct flag; simpl; reflexivity.
    + intros H. apply Hb in H. discriminate.
    + intros _ _. exact (Hf 0%nat ltac:(simpl; lia)).
Qed.

(** ** C46 *)
Lemma out_large obs grids vals method buf lin assume cb atol : (2 <= length (nd_data buf))%nat ->
  py_interpn o c obs grids vals method (Some buf) lin assume cb atol = (Raise ValueError, Some (nd_data buf)).
Proof.
  intros H. unfold py_interpn, choose_out. destruct (nd_data buf) as [|? [|? ?]] eqn:E; simpl in H; try lia.
  simpl. rewrite E. reflexivity.
Qed.
Lemma out_zero obs grids vals method buf v lin assume cb atol : nd_data buf = [v] -> same_number o v z ->
  py_interpn o c obs grids vals method (Some buf) lin assume cb atol =
  (fst (py_interpn o c obs grids vals method None lin assume cb atol), Some [v]).
Proof.
  intros E H. apply feq_same in H. unfold py_interpn, choose_out. rewrite E, H. simpl option_map. rewrite E.
  match goal with |- (match ?p with _ => _ end) = _ => destruct p as [((out1 & own) & (r & data))|e] eqn:Ep end; auto.
  destruct (py_get obs 0); [|discriminate Ep]. cbn [py_bind] in Ep.
  repeat match type of Ep with
  | py_bind ?x _ = _ => let p := fresh in destruct x as [p|?]; cbn [py_bind] in Ep; [|discriminate Ep]
  | (let (_, _) := ?p in _) = _ => destruct p
  end.
  injection Ep as <- <- Ep. reflexivity.
Qed.
Lemma out_used obs grids vals method buf v lin assume cb atol r : nd_data buf = [v] -> ~ same_number o v z ->
  fst (py_interpn o c obs grids vals method (Some buf) lin assume cb atol) = Ret r ->
  nd_shape r = nd_shape buf /\
  snd (py_interpn o c obs grids vals method (Some buf) lin assume cb atol) = Some (nd_data r).
Proof.
  intros E H. assert (Hf : feq o v z = false) by (destruct (feq o v z) eqn:Q; auto; exfalso; apply H, feq_same; auto).
  unfold py_interpn, choose_out. rewrite E, Hf. cbn [py_bind].
  match goal with |- context[match ?p with Ret _ => _ | Raise e => (Raise e, _) end] => destruct p as [((out1 & own) & (q & data))|e] eqn:Ep end; [|discriminate].
  repeat match type of Ep with
  | py_bind ?x _ = _ => let p := fresh in destruct x as [p|?]; cbn [py_bind] in Ep; [|discriminate Ep]
  | (let (_, _) := ?p in _) = _ => destruct p
  end.
  injection Ep as <- <- Ep. destruct q; simpl; [|discriminate]. intros Q. injection Q as <-. auto.
Qed.

(** ** C47 *)
Lemma py_prod_zprod dims : py_prod dims = zprod dims.
Proof. reflexivity. Qed.
Lemma diff_increasing g : differences_sound o -> forallb (fun d => flt o z d) (np_diff o g) = true ->
  forall i a b, nth_error g i = Some a -> nth_error g (S i) = Some b -> flt o a b = true.
Proof.
  intros Hd H i a b Ea Eb. apply Hd. rewrite forallb_forall in H. apply H.
  eapply nth_error_In. apply np_diff_nth; eauto.
Qed.
Lemma class_rect_inv maxd grids vals : differences_sound o -> class_rectilinear_ok o maxd grids vals = true ->
  (1 <= length grids <= maxd)%nat /\ zlen vals = zprod (map zlen grids) /\
  forall g i a b, In g grids -> nth_error g i = Some a -> nth_error g (S i) = Some b -> flt o a b = true.
Proof.
  intros Hd H. unfold class_rectilinear_ok in H. apply andb_prop in H as (H & Hg). apply andb_prop in H as (Hn & Hv).
  rewrite py_prod_zprod in Hv. split; [lia|]. split; [lia|]. intros g i a b Hin. apply diff_increasing; auto.
  rewrite forallb_forall in Hg. apply (Hg g Hin).
Qed.
Lemma class_rect_first_two maxd grids vals : differences_sound o -> class_rectilinear_ok o maxd grids vals = true ->
  Forall (fun g => (2 <= length g)%nat) grids -> Forall (first_two_increase o) grids.
Proof.
  intros Hd H L. destruct (class_rect_inv maxd grids vals Hd H) as (_ & _ & Hi). rewrite Forall_forall in *.
  intros g Hg. specialize (L g Hg). destruct g as [|a [|b g]]; simpl in L; try lia. simpl.
  apply (Hi _ 0%nat a b Hg); reflexivity.
Qed.

Lemma class_eval_raw raw obs out out0 : output_array o obs out out0 ->
  class_eval o raw obs out = py_bind (fst (raw obs out0)) (fun _ => Ret (snd (raw obs out0))).
Proof.
  unfold output_array, class_eval. destruct out as [b|].
  - intros ->. cbn [py_bind]. destruct (raw obs b). reflexivity.
  - intros (x & Hx & ->). destruct obs as [|y l]; simpl in Hx; [discriminate|]. injection Hx as ->.
    unfold py_get. cbn [nth_error py_bind]. destruct (raw _ _). reflexivity.
Qed.

Section Rect.
Variables (grids : list (list F)) (vals : list F) (obs : list (list F)) (out : option (list F)) (out0 : list F).
Variables (maxd m : nat).
Hypothesis Hd : differences_sound o.
Hypothesis Hok : class_rectilinear_ok o maxd grids vals = true.
Hypothesis Hm : (2 <= m)%nat.
Hypothesis Lm : Forall (fun g => (m <= length g)%nat) grids.
Hypothesis Lv : zlen vals <= isize_max.
Hypothesis Lo : length obs = length grids.
Hypothesis Li : Forall (fun xs => length xs = length out0) obs.
Hypothesis Ho : output_array o obs out out0.
Hypothesis M8 : (maxd <= 8)%nat.

Let Lz : zlen vals = zprod (map zlen grids). Proof. apply (class_rect_inv maxd grids vals Hd Hok). Qed.
Let Ln : (1 <= length grids <= maxd)%nat. Proof. apply (class_rect_inv maxd grids vals Hd Hok). Qed.
Let L2 : Forall (fun g => (2 <= length g)%nat) grids.
Proof. eapply Forall_impl; [|exact Lm]. simpl. intros. lia. Qed.
Let FT : Forall (first_two_increase o) grids. Proof. eapply class_rect_first_two; eauto. Qed.
Let Lmz : Forall (fun g => Z.of_nat m <= zlen g) grids.
Proof. eapply Forall_impl; [|exact Lm]. unfold zlen. simpl. intros. lia. Qed.
Let P : prefix_products_fit (map zlen grids).
Proof. apply prefix_fit; [|rewrite <- Lz; exact Lv]. rewrite Forall_map. eapply Forall_impl; [|exact Lmz]. simpl. intros. lia. Qed.
Let RI : rect_input c grids vals.
Proof. split; [lia|]. split; [exact Lv|]. right. rewrite <- Lz. unfold isize_max, two64 in *. lia. Qed.
Let U : unpack_ok grids && unpack_ok obs = true. Proof. unfold unpack_ok. lia. Qed.

Definition class_returns (raw : list (list F) -> list F -> py unit * list F) (r : outcome unit * list F) : Prop :=
  exists data, class_eval o raw obs out = Ret data /\ r = (Ok tt, data) /\ length data = length out0.

Lemma class_returns_intro raw r one : raw obs out0 = raw_result r ->
  batch_spec z one obs out0 (fst r) (snd r) ->
  (forall x, length x = length grids -> exists v, one x = Ok v) -> class_returns raw r.
Proof.
  intros Hr Hb Ht. destruct (batch_total z one obs out0 r Hb) as (data & Er & Ld & _).
  - intros j _. apply Ht. unfold point_of. rewrite map_length. exact Lo.
  - exists data. rewrite (class_eval_raw raw obs out out0 Ho), Hr, Er. auto.
Qed.

Lemma class_linear_rect : class_returns (raw_linear_rectilinear o c grids vals) (mlc_interpn o c grids vals obs out0).
Proof.
  assert (E2 : Forall (fun g => 2 <= zlen g) grids) by (eapply Forall_impl; [|exact Lmz]; simpl; intros; lia).
  assert (Er : raw_linear_rectilinear o c grids vals obs out0 = raw_result (mlc_interpn o c grids vals obs out0))
    by (unfold raw_linear_rectilinear; rewrite U; reflexivity).
  destruct (Nat.le_gt_cases (length grids) 6) as [H6|H6].
  - assert (N : mlc_new o c grids vals = Ok (mkRect grids (map zlen grids) vals)) by (eapply accept3; [apply new_checks_mlc; auto|..]; auto).
    eapply class_returns_intro; [exact Er|eapply interpn_batch_mlc; eauto; lia|].
    intros x Lx. eapply total_mlc; eauto.
  - assert (N : mlcr_new o c (length grids) grids vals = Ok (mkRect grids (map zlen grids) vals)) by (eapply accept3; [apply new_checks_mlcr; auto; lia|..]; auto).
    eapply class_returns_intro; [exact Er|eapply interpn_batch_mlcr; eauto; lia|].
    intros x Lx. eapply total_mlcr; eauto.
Qed.
Lemma class_nearest_rect : (maxd <= 6)%nat -> class_returns (raw_nearest_rectilinear o c grids vals) (nc_interpn o c grids vals obs out0).
Proof.
  intros M6.
  assert (E2 : Forall (fun g => 2 <= zlen g) grids) by (eapply Forall_impl; [|exact Lmz]; simpl; intros; lia).
  assert (Er : raw_nearest_rectilinear o c grids vals obs out0 = raw_result (nc_interpn o c grids vals obs out0))
    by (unfold raw_nearest_rectilinear; rewrite U; reflexivity).
  assert (N : nc_new o c grids vals = Ok (mkRect grids (map zlen grids) vals)) by (eapply accept3; [apply new_checks_mlc; auto|..]; auto).
  eapply class_returns_intro; [exact Er|eapply interpn_batch_nc; eauto; lia|].
  intros x Lx. eapply total_nc; eauto.
Qed.
Lemma class_cubic_rect lin : (4 <= m)%nat -> class_returns (raw_cubic_rectilinear o c grids vals lin) (mcc_interpn o c grids vals lin obs out0).
Proof.
  intros M4.
  assert (E2 : Forall (fun g => 4 <= zlen g) grids) by (eapply Forall_impl; [|exact Lmz]; simpl; intros; lia).
  assert (Er : raw_cubic_rectilinear o c grids vals lin obs out0 = raw_result (mcc_interpn o c grids vals lin obs out0))
    by (unfold raw_cubic_rectilinear; rewrite U; reflexivity).
  destruct (Nat.le_gt_cases (length grids) 4) as [H6|H6].
  - assert (N : mcc_new o c grids vals lin = Ok (mkCC (mkRect grids (map zlen grids) vals) lin)) by (eapply accept3; [apply new_checks_mcc; auto|..]; auto).
    eapply class_returns_intro; [exact Er|eapply interpn_batch_mcc; eauto; lia|].
    intros x Lx. eapply total_mcc; eauto.
  - assert (N : mccr_new o c (length grids) grids vals lin = Ok (mkCC (mkRect grids (map zlen grids) vals) lin)) by (eapply accept3; [apply new_checks_mccr; auto; lia|..]; auto).
    eapply class_returns_intro; [exact Er|eapply interpn_batch_mccr; eauto; lia|].
    intros x Lx. eapply total_mccr; eauto.
Qed.
End Rect.
End Gen.

Lemma differences_R : differences_sound ROps.
Proof. intros a b H. simpl in *. apply Rltb_true in H. apply Rltb_true. lra. Qed.
Lemma differences_B prec emax Hp He : differences_sound (@BOps prec emax Hp He).
Proof.
  intros a b H. destruct (is_finite a) eqn:Fa, (is_finite b) eqn:Fb.
  - assert (S := sub_rounds Hp He b a Fb Fa).
    destruct (flt (BOps Hp He) a b) eqn:E; auto. exfalso.
    assert (V : (B2R b - B2R a <= B2R (B754_zero false : binary_float prec emax))%R).
    { simpl. destruct (Rle_or_lt (B2R b) (B2R a)) as [Q|Q]; [lra|]. apply (ltb_fin Hp He a b Fa Fb) in Q. congruence. }
    assert (W := rounds_le Hp He (B754_zero false) S eq_refl V).
    destruct (fsub (BOps Hp He) b a) as [s|s| |s mm e ee]; try destruct s; simpl in H, W; try discriminate H; try discriminate W.
  - destruct b as [s|s| |s mm e ee]; try discriminate Fb; destruct a as [s'|s'| |s' mm' e' ee']; try discriminate Fa; try destruct s; try destruct s'; simpl in H; try discriminate H; reflexivity.
  - destruct b as [s|s| |s mm e ee]; try discriminate Fb; destruct a as [s'|s'| |s' mm' e' ee']; try discriminate Fa; try destruct s; try destruct s'; simpl in H; try discriminate H; reflexivity.
  - destruct b as [s|s| |s mm e ee]; try discriminate Fb; destruct a as [s'|s'| |s' mm' e' ee']; try discriminate Fa; try destruct s; try destruct s'; simpl in H; try discriminate H; reflexivity.
Qed.

(** One axis, exact arithmetic *)
Section OneR.
Open Scope R_scope.
Lemma bounds_exact c x g vals method lin assume atol :
  (2 <= length (nd_data g))%nat -> (zlen (nd_data g) < two64)%Z -> strictly_increasing (nd_data g) ->
  (assume = true -> evenly_spaced ROps (nd_data g)) ->
  let call cb := py_interpn ROps c [x] [g] vals method None lin assume cb atol in
  let outside := beyond (nth 0 (nd_data g) 0) (last (nd_data g) 0) atol (nd_data x) in
  (outside -> fst (call true) = Raise ValueError) /\ (~ outside -> call true = call false).
Proof.
  intros L Hz S Ha call outside.
  assert (U : usize_converts ROps) by (intros n _; simpl; eauto).
  destruct (bounds_one_dim ROps c x g vals method lin assume atol U L Hz) as (flag & Hf & Hr & Hc).
  assert (Hl : last (nd_data g) 0 = nth (length (nd_data g) - 1) (nd_data g) 0).
  { apply last_nth. }
  assert (E : flag = true <-> outside).
  { destruct (Classical_Prop.classic (evenly_spaced ROps (nd_data g))) as [Ev|Ev].
    - destruct (Hr (or_intror Ev)) as (m & Em & ->). rewrite violates_R.
      simpl in Em. injection Em as <-. cbn [fmin fmax fadd fmul fsub fzero ROps].
      assert (Q : nth 0 (nd_data g) 0 + (nth 1 (nd_data g) 0 - nth 0 (nd_data g) 0) * IZR (zlen (nd_data g) - 1)
        = last (nd_data g) 0).
      { rewrite Hl, (evenly_coord (nd_data g) (length (nd_data g) - 1)) by (auto; lia).
        rewrite INR_IZR_INZ. do 3 f_equal. unfold zlen. lia. }
      rewrite Q.
      assert (O : nth 0 (nd_data g) 0 < last (nd_data g) 0).
      { rewrite Hl. apply sorted_nth; [exact S|lia]. }
      unfold outside. rewrite Rmin_left, Rmax_right by lra. reflexivity.
    - assert (A : assume = false) by (destruct assume; auto; exfalso; auto).
      rewrite (Hc A Ev), violates_R. unfold outside. rewrite Hl. reflexivity. }
  split; intros H.
  - apply E in H. rewrite H in Hf. exact Hf.
  - destruct flag; [exfalso; apply H, E; auto|]. exact Hf.
Qed.
End OneR.

(** ** C47, regular classes *)
Section RegClass.
Context {F : Type} (o : Ops F) (c : cfg).
Variables (dims : list Z) (starts steps vals : list F) (obs : list (list F)) (out : option (list F)) (out0 : list F).
Variables (maxd : nat).
Notation z := (fzero o).
Hypothesis Hu : usize_converts o.
Hypothesis Hok : class_regular_ok o maxd dims starts steps vals = true.
Hypothesis L2 : Forall (fun d => 2 <= d) dims.
Hypothesis Lv : zlen vals <= isize_max.
Hypothesis Lo : length obs = length dims.
Hypothesis Li : Forall (fun xs => length xs = length out0) obs.
Hypothesis Ho : output_array o obs out out0.
Hypothesis M8 : (maxd <= 8)%nat.

Lemma class_reg_inv : (1 <= length dims <= maxd)%nat /\ length starts = length dims /\ length steps = length dims /\
  zlen vals = zprod dims /\ Forall (fun h => flt o z h = true) steps.
Proof.
  clear - Hok. unfold class_regular_ok in Hok. rewrite !andb_true_iff in Hok. destruct Hok as ((((H1 & H2) & H3) & H4) & H5).
  rewrite py_prod_zprod in H4. repeat split; try lia. apply forallb_Forall in H5. exact H5.
Qed.
Let Ln : (1 <= length dims <= maxd)%nat. Proof. apply class_reg_inv. Qed.
Let L3 : length starts = length dims. Proof. apply class_reg_inv. Qed.
Let L4 : length steps = length dims. Proof. apply class_reg_inv. Qed.
Let Lz : zlen vals = zprod dims. Proof. apply class_reg_inv. Qed.
Let SP : Forall (fun h => flt o z h = true) steps. Proof. apply class_reg_inv. Qed.
Let P : prefix_products_fit dims.
Proof. apply prefix_fit; [|rewrite <- Lz; exact Lv]. eapply Forall_impl; [|exact L2]. simpl. intros. lia. Qed.
Let GI : reg_input c dims starts steps vals.
Proof. repeat split; auto; try lia. right. rewrite <- Lz. unfold isize_max, two64 in *. lia. Qed.
Let U : unpack_ok obs = true. Proof. unfold unpack_ok. lia. Qed.
Let D : dims_ok dims = true.
Proof. unfold dims_ok. apply forallb_forall. rewrite Forall_forall in L2. intros d Hd. specialize (L2 d Hd). simpl in L2. lia. Qed.

Definition class_no_panic (raw : list (list F) -> list F -> py unit * list F) (r : outcome unit * list F) : Prop :=
  match class_eval o raw obs out with
  | Ret data => r = (Ok tt, data) /\ length data = length out0
  | Raise e => exists msg, e = AssertionError msg /\ fst r = Err msg
  end.
Lemma class_no_panic_intro raw r one : raw obs out0 = raw_result r ->
  batch_spec z one obs out0 (fst r) (snd r) ->
  (forall x, length x = length dims -> one x <> Panic) -> class_no_panic raw r.
Proof.
  intros Hr Hb Ht. unfold class_no_panic. rewrite (class_eval_raw o raw obs out out0 Ho), Hr.
  destruct r as [res data]. destruct Hb as (L & Hb). simpl in L, Hb. destruct res as [[]|e|]; simpl.
  - auto.
  - eauto.
  - destruct Hb as (i & Hi & E & _). exfalso. apply (Ht (point_of z obs i)); auto.
    unfold point_of. rewrite map_length. exact Lo.
Qed.
Lemma class_linear_reg : class_no_panic (raw_linear_regular o c dims starts steps vals) (mlr_interpn o c dims starts steps vals obs out0).
Proof.
  assert (Er : raw_linear_regular o c dims starts steps vals obs out0 = raw_result (mlr_interpn o c dims starts steps vals obs out0))
    by (unfold raw_linear_regular; rewrite U, D; reflexivity).
  destruct (Nat.le_gt_cases (length dims) 6) as [H6|H6].
  - assert (N : mlr_new o c dims starts steps vals = Ok (mkRegular dims starts steps vals)) by (eapply accept3; [apply new_checks_mlr; auto|..]; auto).
    eapply class_no_panic_intro; [exact Er|eapply interpn_batch_mlr; eauto; lia|].
    intros x Lx. eapply nopanic_mlr; eauto.
  - assert (N : mlrr_new o c (length dims) dims starts steps vals = Ok (mkRegular dims starts steps vals)) by (eapply accept3; [apply new_checks_mlrr; auto; lia|..]; auto; repeat split; auto; lia).
    eapply class_no_panic_intro; [exact Er|eapply interpn_batch_mlrr; eauto; lia|].
    intros x Lx. eapply nopanic_mlrr; eauto.
Qed.
Lemma class_nearest_reg : (maxd <= 6)%nat -> class_no_panic (raw_nearest_regular o c dims starts steps vals) (nr_interpn o c dims starts steps vals obs out0).
Proof.
  intros M6.
  assert (Er : raw_nearest_regular o c dims starts steps vals obs out0 = raw_result (nr_interpn o c dims starts steps vals obs out0))
    by (unfold raw_nearest_regular; rewrite U, D; reflexivity).
  assert (N : nr_new o c dims starts steps vals = Ok (mkRegular dims starts steps vals)) by (eapply accept3; [apply new_checks_mlr; auto|..]; auto).
  eapply class_no_panic_intro; [exact Er|eapply interpn_batch_nr; eauto; lia|].
  intros x Lx. eapply nopanic_nr; eauto.
Qed.
Lemma class_cubic_reg lin : ovf_checks c = false -> Forall (fun d => 4 <= d) dims ->
  class_no_panic (raw_cubic_regular o c dims starts steps vals lin) (mcr_interpn o c dims starts steps vals lin obs out0).
Proof.
  intros Hov M4.
  assert (Er : raw_cubic_regular o c dims starts steps vals lin obs out0 = raw_result (mcr_interpn o c dims starts steps vals lin obs out0))
    by (unfold raw_cubic_regular; rewrite U, D; reflexivity).
  destruct (Nat.le_gt_cases (length dims) 4) as [H6|H6].
  - assert (N : mcr_new o c dims starts steps vals lin = Ok (mkCR (mkRegular dims starts steps vals) lin)) by (eapply accept3; [apply new_checks_mcr; auto; lia|..]; auto).
    eapply class_no_panic_intro; [exact Er|eapply interpn_batch_mcr; eauto; lia|].
    intros x Lx. eapply nopanic_mcr; eauto.
  - assert (N : mcrr_new o c (length dims) dims starts steps vals lin = Ok (mkCR (mkRegular dims starts steps vals) lin)) by (eapply accept3; [apply new_checks_mcrr; auto; lia|..]; auto; repeat split; auto; lia).
    eapply class_no_panic_intro; [exact Er|eapply interpn_batch_mcrr; eauto; lia|].
    intros x Lx. eapply nopanic_mcrr; eauto.
Qed.
End RegClass.

(** check_bounds of the classes, exact arithmetic *)
Section ClassBounds.
Open Scope R_scope.
Lemma class_bounds_reg c maxd dims starts steps vals obs atol :
  class_regular_ok ROps maxd dims starts steps vals = true -> (maxd <= 8)%nat ->
  Forall (fun d => (1 <= d < two64)%Z) dims -> length obs = length dims ->
  exists flags, class_check_bounds (length dims) (raw_check_bounds_regular ROps c dims starts steps) obs atol = Ret flags /\
    length flags = length dims /\ forall k, (k < length dims)%nat ->
    (nth k flags false = true <->
     beyond (nth k starts 0) (nth k starts 0 + nth k steps 0 * IZR (nth k dims 0%Z - 1)) atol (nth k obs [])).
Proof.
  intros Hok M8 Hd Lo. destruct (class_reg_inv ROps dims starts steps vals maxd Hok) as (Ln & L1 & L2 & _ & SP).
  destruct (@C25_proof_regular c dims starts steps obs atol (repeat false (length dims)) L1 L2 Hd Lo) as (flags & E & Lf & Hf);
    [apply repeat_length|].
  exists flags. unfold class_check_bounds, raw_check_bounds_regular.
  replace (dims_ok dims) with true.
  2:{ symmetry. apply forallb_forall. rewrite Forall_forall in Hd. intros d Hi. specialize (Hd d Hi). simpl in Hd. lia. }
  replace (unpack_ok obs) with true by (unfold unpack_ok; lia). cbn [negb]. rewrite E. split; [reflexivity|]. split; auto.
  intros k Hk. rewrite (Hf k Hk). cbv zeta.
  assert (S : 0 < nth k steps 0).
  { rewrite Forall_forall in SP. assert (I := SP (nth k steps 0) ltac:(apply nth_In; lia)). simpl in I. apply Rltb_true in I. exact I. }
  assert (Q : 0 <= IZR (nth k dims 0%Z - 1)).
  { apply IZR_le. rewrite Forall_forall in Hd. specialize (Hd _ (nth_In dims 0%Z Hk)). simpl in Hd. lia. }
  assert (W := Rmult_le_pos _ _ (Rlt_le _ _ S) Q).
  rewrite Rmin_left, Rmax_right by lra. reflexivity.
Qed.
Lemma class_bounds_rect maxd grids vals obs atol :
  class_rectilinear_ok ROps maxd grids vals = true -> (maxd <= 8)%nat ->
  Forall (fun g => (1 <= length g)%nat) grids -> length obs = length grids ->
  exists flags, class_check_bounds (length grids) (raw_check_bounds_rectilinear ROps grids) obs atol = Ret flags /\
    length flags = length grids /\ forall k, (k < length grids)%nat ->
    (nth k flags false = true <-> beyond (nth 0 (nth k grids []) 0) (last (nth k grids []) 0) atol (nth k obs [])).
Proof.
  intros Hok M8 Hd Lo. destruct (class_rect_inv ROps maxd grids vals differences_R Hok) as (Ln & _).
  destruct (@C25_proof_rectilinear grids obs atol (repeat false (length grids)) Hd Lo) as (flags & E & Lf & Hf);
    [apply repeat_length|].
  exists flags. unfold class_check_bounds, raw_check_bounds_rectilinear.
  replace (unpack_ok grids && unpack_ok obs) with true by (unfold unpack_ok; lia). cbn [negb]. rewrite E. split; [reflexivity|]. split; auto.
Qed.
End ClassBounds.
