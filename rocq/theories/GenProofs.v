(** Proofs of the properties that hold for every number type. *)
From Coq Require Import ZifyBool ZifyNat PeanoNat.
From Verif Require Import Base Ops ModelCore ModelLinear ModelNearest ModelCubic ModelOneDim.
From Verif Require Import Spec CoreLemmas TensorLemmas MethodLemmas SearchLemmas MethodChar GenLemmas.
Open Scope string_scope.
Open Scope Z_scope.

Section Gen.
Context {F : Type} (o : Ops F) (c : cfg).
Variables (dims : list Z) (starts steps vals : list F) (grids : list (list F)).

(** ** C11 *)
Lemma flat_rec_reg_linear maxdims s x :
  usize_converts o -> use_fma c = false -> reg_input c dims starts steps vals ->
  (length dims <= maxdims)%nat -> length x = length dims ->
  mlr_new o c dims starts steps vals = Ok s ->
  mlr_interp_one o c s x = mlrr_interp_one o c maxdims s x.
Proof.
  intros Hu Hf Hi Hm Lx Hs. apply mlr_new_inv in Hs as (W & ->); auto.
  rewrite mlr_char, mlrr_char by auto. rewrite Hf. reflexivity.
Qed.

Lemma flat_rec_rect_linear maxdims s x :
  rect_input c grids vals ->
  (length grids <= maxdims)%nat -> length x = length grids ->
  mlc_new o c grids vals = Ok s ->
  mlc_interp_one o c s x = mlcr_interp_one o c maxdims s x.
Proof.
  intros Hi Hm Lx Hs. apply mlc_new_inv in Hs as (W & ->); auto.
  rewrite mlc_char, mlcr_char by auto. reflexivity.
Qed.

Lemma flat_rec_reg_cubic maxdims lin s x :
  usize_converts o -> use_fma c = false -> reg_input c dims starts steps vals ->
  (length dims <= maxdims)%nat -> length x = length dims ->
  mcr_new o c dims starts steps vals lin = Ok s ->
  mcr_interp_one o c s x = mcrr_interp_one o c maxdims s x.
Proof.
  intros Hu Hf Hi Hm Lx Hs. apply mcr_new_inv in Hs as (W & ->); auto.
  rewrite mcr_char, mcrr_char by auto. rewrite Hf. reflexivity.
Qed.

Lemma flat_rec_rect_cubic maxdims lin s x :
  use_fma c = false -> rect_input c grids vals ->
  (length grids <= maxdims)%nat -> length x = length grids ->
  mcc_new o c grids vals lin = Ok s ->
  mcc_interp_one o c s x = mccr_interp_one o c maxdims s x.
Proof.
  intros Hf Hi Hm Lx Hs. apply mcc_new_inv in Hs as (W & ->); auto.
  rewrite mcc_char, mccr_char by auto. rewrite Hf. reflexivity.
Qed.

(** The constructors agree too. *)
Lemma new_flat_rec_reg_linear maxdims :
  (1 <= length dims <= maxdims)%nat -> length starts = length dims -> length steps = length dims ->
  mlr_new o c dims starts steps vals = mlrr_new o c maxdims dims starts steps vals.
Proof.
  intros H1 H2 H3. unfold mlr_new, mlrr_new. rewrite H2, H3, Nat.eqb_refl.
  replace (0 <? length dims)%nat with true by lia.
  replace (maxdims <? length dims)%nat with false by lia.
  apply bind_ext. intros nv. rewrite andb_true_r. reflexivity.
Qed.

Lemma new_flat_rec_reg_cubic maxdims lin :
  (1 <= length dims <= maxdims)%nat -> length starts = length dims -> length steps = length dims ->
  mcr_new o c dims starts steps vals lin = mcrr_new o c maxdims dims starts steps vals lin.
Proof.
  intros H1 H2 H3. unfold mcr_new, mcrr_new.
  replace (maxdims <? length dims)%nat with false by lia. reflexivity.
Qed.

Lemma new_flat_rec_rect_linear maxdims :
  (1 <= length grids <= maxdims)%nat ->
  mlc_new o c grids vals = mlcr_new o c maxdims grids vals.
Proof.
  intros H1. unfold mlc_new, mlcr_new.
  replace (maxdims <? length grids)%nat with false by lia.
  replace (0 <? length grids)%nat with true by lia.
  replace (length grids <=? maxdims)%nat with true by lia.
  apply bind_ext. intros nv. rewrite !andb_true_r. reflexivity.
Qed.

Lemma new_flat_rec_rect_cubic maxdims lin :
  (1 <= length grids <= maxdims)%nat ->
  mcc_new o c grids vals lin = mccr_new o c maxdims grids vals lin.
Proof.
  intros H1. unfold mcc_new, mccr_new.
  replace (maxdims <? length grids)%nat with false by lia.
  replace (0 <? length grids)%nat with true by lia.
  replace (length grids <=? maxdims)%nat with true by lia.
  apply bind_ext. intros nv. rewrite !andb_true_r. reflexivity.
Qed.

Lemma try_into_ok A (l : list A) n : length l = n -> try_into_unwrap n l = Ok l.
Proof. intros <-. unfold try_into_unwrap. rewrite Nat.eqb_refl. reflexivity. Qed.

Lemma and_then_ext A G (m : outcome A) (out : list G) k k' :
  (forall a, m = Ok a -> k a = k' a) -> and_then m out k = and_then m out k'.
Proof. intros H. destruct m; simpl; auto. Qed.

(** interpn with and without the dimension-based dispatch. *)
Lemma interpn_flat_rec_reg_linear obs out :
  usize_converts o -> use_fma c = false ->
  length starts = length dims -> length steps = length dims -> length obs = length dims ->
  zlen vals <= isize_max -> (ovf_checks c = true \/ zprod dims < two64) ->
  mlr_interpn o c dims starts steps vals obs out = mlrr_interpn o c dims starts steps vals obs out.
Proof.
  intros Hu Hf L1 L2 L3 Hv Ho. unfold mlr_interpn, mlrr_interpn.
  rewrite L1, L2, L3, Nat.eqb_refl. cbn [negb orb].
  destruct ((1 <=? length dims)%nat && (length dims <=? 6)%nat) eqn:E6.
  - replace ((1 <=? length dims)%nat && (length dims <=? 8)%nat) with true by lia.
    rewrite !try_into_ok by auto. cbn [bind].
    rewrite (new_flat_rec_reg_linear (maxdims := length dims)) by (auto; lia).
    apply and_then_ext. intros s Hs. cbn [and_then].
    assert (Hi : reg_input c dims starts steps vals) by (repeat split; auto; lia).
    unfold mlr_interp, mlrr_interp. apply interp_batch_ext. intros x Lx.
    apply mlrr_new_inv in Hs as Hs'; auto. destruct Hs' as (W & -> & _).
    eapply flat_rec_reg_linear; eauto.
    rewrite (new_flat_rec_reg_linear (maxdims := length dims)) by (auto; lia). exact Hs.
  - destruct ((7 <=? length dims)%nat && (length dims <=? 8)%nat) eqn:E8.
    + replace ((1 <=? length dims)%nat && (length dims <=? 8)%nat) with true by lia. reflexivity.
    + replace ((1 <=? length dims)%nat && (length dims <=? 8)%nat) with false by lia. reflexivity.
Qed.

Lemma interpn_flat_rec_rect_linear obs out :
  length obs = length grids ->
  zlen vals <= isize_max -> (ovf_checks c = true \/ zprod (map zlen grids) < two64) ->
  mlc_interpn o c grids vals obs out = mlcr_interpn o c grids vals obs out.
Proof.
  intros L3 Hv Ho. unfold mlc_interpn, mlcr_interpn.
  rewrite L3, Nat.eqb_refl. cbn [negb orb].
  destruct ((1 <=? length grids)%nat && (length grids <=? 6)%nat) eqn:E6.
  - replace ((1 <=? length grids)%nat && (length grids <=? 8)%nat) with true by lia.
    rewrite !try_into_ok by auto. cbn [bind].
    rewrite (new_flat_rec_rect_linear (maxdims := length grids)) by lia.
    apply and_then_ext. intros s Hs. cbn [and_then].
    assert (Hi : rect_input c grids vals) by (repeat split; auto; lia).
    apply mlcr_new_inv in Hs as Hs'; auto. destruct Hs' as (W & -> & _).
    unfold mlc_interp, mlcr_interp. cbn [g_dims g_grids]. rewrite map_length.
    apply interp_batch_ext. intros x Lx.
    eapply flat_rec_rect_linear; eauto.
    rewrite (new_flat_rec_rect_linear (maxdims := length grids)) by lia. exact Hs.
  - destruct ((7 <=? length grids)%nat && (length grids <=? 8)%nat) eqn:E8.
    + replace ((1 <=? length grids)%nat && (length grids <=? 8)%nat) with true by lia. reflexivity.
    + replace ((1 <=? length grids)%nat && (length grids <=? 8)%nat) with false by lia. reflexivity.
Qed.

Lemma interpn_flat_rec_reg_cubic lin obs out :
  usize_converts o -> use_fma c = false ->
  length starts = length dims -> length steps = length dims -> length obs = length dims ->
  zlen vals <= isize_max -> (ovf_checks c = true \/ zprod dims < two64) ->
  mcr_interpn o c dims starts steps vals lin obs out
  = mcrr_interpn o c dims starts steps vals lin obs out.
Proof.
  intros Hu Hf L1 L2 L3 Hv Ho. unfold mcr_interpn, mcrr_interpn.
  destruct ((1 <=? length dims)%nat && (length dims <=? 4)%nat) eqn:E6.
  - replace ((1 <=? length dims)%nat && (length dims <=? 8)%nat) with true by lia.
    rewrite !try_into_ok by auto. cbn [bind].
    rewrite (new_flat_rec_reg_cubic (maxdims := length dims)) by (auto; lia).
    apply and_then_ext. intros s Hs. cbn [and_then].
    assert (Hi : reg_input c dims starts steps vals) by (repeat split; auto; lia).
    unfold mcr_interp, mcrr_interp. apply interp_batch_ext. intros x Lx.
    apply mcrr_new_inv in Hs as Hs'; auto. destruct Hs' as (W & -> & _).
    eapply flat_rec_reg_cubic; eauto.
    rewrite (new_flat_rec_reg_cubic (maxdims := length dims)) by (auto; lia). exact Hs.
  - destruct ((5 <=? length dims)%nat && (length dims <=? 8)%nat) eqn:E8.
    + replace ((1 <=? length dims)%nat && (length dims <=? 8)%nat) with true by lia. reflexivity.
    + replace ((1 <=? length dims)%nat && (length dims <=? 8)%nat) with false by lia. reflexivity.
Qed.

Lemma interpn_flat_rec_rect_cubic lin obs out :
  use_fma c = false -> length obs = length grids ->
  zlen vals <= isize_max -> (ovf_checks c = true \/ zprod (map zlen grids) < two64) ->
  mcc_interpn o c grids vals lin obs out = mccr_interpn o c grids vals lin obs out.
Proof.
  intros Hf L3 Hv Ho. unfold mcc_interpn, mccr_interpn.
  destruct ((1 <=? length grids)%nat && (length grids <=? 4)%nat) eqn:E6.
  - replace ((1 <=? length grids)%nat && (length grids <=? 8)%nat) with true by lia.
    rewrite !try_into_ok by auto. cbn [bind].
    rewrite (new_flat_rec_rect_cubic (maxdims := length grids)) by lia.
    apply and_then_ext. intros s Hs. cbn [and_then].
    assert (Hi : rect_input c grids vals) by (repeat split; auto; lia).
    apply mccr_new_inv in Hs as Hs'; auto. destruct Hs' as (W & -> & _).
    unfold mcc_interp, mccr_interp. cbn [cc_base g_dims g_grids]. rewrite map_length.
    apply interp_batch_ext. intros x Lx.
    eapply flat_rec_rect_cubic; eauto.
    rewrite (new_flat_rec_rect_cubic (maxdims := length grids)) by lia. exact Hs.
  - destruct ((5 <=? length grids)%nat && (length grids <=? 8)%nat) eqn:E8.
    + replace ((1 <=? length grids)%nat && (length grids <=? 8)%nat) with true by lia. reflexivity.
    + replace ((1 <=? length grids)%nat && (length grids <=? 8)%nat) with false by lia. reflexivity.
Qed.

(** ** C12 *)
Lemma reg_cells_nopanic s x : reg_cells o s x <> Panic.
Proof.
  unfold reg_cells. induction (seq 0 _) as [|k l IH]; simpl; [discriminate|].
  unfold reg_cell at 1. destruct (to_isize o _); simpl; [|discriminate].
  destruct (mapM _ l); simpl; congruence.
Qed.

Lemma bind_nopanic A B (m : outcome A) (f : A -> outcome B) :
  m <> Panic -> (forall a, f a <> Panic) -> bind m f <> Panic.
Proof. destruct m; simpl; auto. discriminate. Qed.

Lemma nopanic_mlr s x :
  usize_converts o -> reg_input c dims starts steps vals -> length x = length dims ->
  mlr_new o c dims starts steps vals = Ok s -> mlr_interp_one o c s x <> Panic.
Proof.
  intros Hu Hi Lx Hs. apply mlr_new_inv in Hs as (W & ->); auto.
  rewrite mlr_char by auto. apply bind_nopanic; [apply reg_cells_nopanic|discriminate].
Qed.

Lemma nopanic_mlrr maxdims s x :
  usize_converts o -> reg_input c dims starts steps vals ->
  mlrr_new o c maxdims dims starts steps vals = Ok s -> mlrr_interp_one o c maxdims s x <> Panic.
Proof.
  intros Hu Hi Hs. apply mlrr_new_inv in Hs as (W & -> & Hm); auto.
  destruct (Nat.eq_dec (length x) (length dims)) as [Lx|Lx].
  - rewrite mlrr_char by auto. apply bind_nopanic; [apply reg_cells_nopanic|discriminate].
  - unfold mlrr_interp_one. cbn [r_dims]. replace (negb _) with true by lia. discriminate.
Qed.

Lemma nopanic_nr s x :
  usize_converts o -> reg_input c dims starts steps vals -> length x = length dims ->
  nr_new o c dims starts steps vals = Ok s -> nr_interp_one o c s x <> Panic.
Proof.
  intros Hu Hi Lx Hs. apply mlr_new_inv in Hs as (W & ->); auto.
  rewrite nr_char by auto. apply bind_nopanic; [apply reg_cells_nopanic|discriminate].
Qed.

Lemma total_mlc s x : rect_input c grids vals -> length x = length grids ->
  mlc_new o c grids vals = Ok s -> exists v, mlc_interp_one o c s x = Ok v.
Proof.
  intros Hi Lx Hs. apply mlc_new_inv in Hs as (W & ->); auto. rewrite mlc_char by auto. eauto.
Qed.

Lemma total_mlcr maxdims s x : rect_input c grids vals -> length x = length grids ->
  mlcr_new o c maxdims grids vals = Ok s -> exists v, mlcr_interp_one o c maxdims s x = Ok v.
Proof.
  intros Hi Lx Hs. apply mlcr_new_inv in Hs as (W & -> & Hm); auto. rewrite mlcr_char by auto. eauto.
Qed.

Lemma total_nc s x : rect_input c grids vals -> length x = length grids ->
  nc_new o c grids vals = Ok s -> exists v, nc_interp_one o c s x = Ok v.
Proof.
  intros Hi Lx Hs. apply mlc_new_inv in Hs as (W & ->); auto. rewrite nc_char by auto. eauto.
Qed.

Lemma total_mcc lin s x : rect_input c grids vals -> length x = length grids ->
  mcc_new o c grids vals lin = Ok s -> exists v, mcc_interp_one o c s x = Ok v.
Proof.
  intros Hi Lx Hs. apply mcc_new_inv in Hs as (W & ->); auto. rewrite mcc_char by auto. eauto.
Qed.

Lemma total_mccr maxdims lin s x : rect_input c grids vals -> length x = length grids ->
  mccr_new o c maxdims grids vals lin = Ok s -> exists v, mccr_interp_one o c maxdims s x = Ok v.
Proof.
  intros Hi Lx Hs. apply mccr_new_inv in Hs as (W & -> & Hm); auto. rewrite mccr_char by auto. eauto.
Qed.

(** ** C13: the only panic is the cell number -2^63 in a build with overflow checks. *)
Definition cell_number (x : list F) (k : nat) : option Z :=
  to_isize o (ffloor o (fdiv o (fsub o (nth k x (fzero o)) (nth k starts (fzero o)))
                               (nth k steps (fzero o)))).

Lemma mapM_nopanic A B (f : A -> outcome B) l :
  (forall a, In a l -> f a <> Panic) -> mapM f l <> Panic.
Proof.
  induction l as [|a l IH]; simpl; intros H; [discriminate|].
  apply bind_nopanic; auto. intros b. apply bind_nopanic; auto. discriminate.
Qed.

Lemma creg_cells_nopanic s x : r_dims s = dims -> r_starts s = starts -> r_steps s = steps ->
  (ovf_checks c = false \/ forall k i, (k < length dims)%nat -> cell_number x k = Some i -> isize_min < i <= isize_max) ->
  creg_cells o c s x <> Panic.
Proof.
  intros E1 E2 E3 H. unfold creg_cells. rewrite E1, E2, E3. apply mapM_nopanic. intros k Hk.
  apply in_seq in Hk. unfold creg_cell, cell_number in *.
  destruct (to_isize o _) as [i|] eqn:Ei; simpl; [|discriminate].
  unfold isize_sub, isize_res. destruct H as [H|H].
  - rewrite H. destruct (_ && _); simpl; discriminate.
  - specialize (H k i ltac:(lia) Ei).
    replace ((isize_min <=? i - 1) && (i - 1 <=? isize_max)) with true
      by (unfold isize_min, isize_max in *; lia).
    simpl. discriminate.
Qed.

Lemma nopanic_mcr lin s x :
  usize_converts o -> reg_input c dims starts steps vals -> length x = length dims ->
  mcr_new o c dims starts steps vals lin = Ok s ->
  (ovf_checks c = false \/ forall k i, (k < length dims)%nat -> cell_number x k = Some i -> isize_min < i <= isize_max) ->
  mcr_interp_one o c s x <> Panic.
Proof.
  intros Hu Hi Lx Hs Hc. apply mcr_new_inv in Hs as (W & ->); auto.
  rewrite mcr_char by auto. apply bind_nopanic; [|discriminate].
  apply creg_cells_nopanic; auto.
Qed.

Lemma nopanic_mcrr maxdims lin s x :
  usize_converts o -> reg_input c dims starts steps vals -> length x = length dims ->
  mcrr_new o c maxdims dims starts steps vals lin = Ok s ->
  (ovf_checks c = false \/ forall k i, (k < length dims)%nat -> cell_number x k = Some i -> isize_min < i <= isize_max) ->
  mcrr_interp_one o c maxdims s x <> Panic.
Proof.
  intros Hu Hi Lx Hs Hc. apply mcrr_new_inv in Hs as (W & -> & Hm); auto.
  rewrite mcrr_char by auto. apply bind_nopanic; [|discriminate].
  apply creg_cells_nopanic; auto.
Qed.

(** ** C14 *)

Lemma new_checks_mlr : prefix_products_fit dims ->
  checks_in_order
    [ (zlen vals = zprod dims, "Dimension mismatch");
      (Forall (fun d => 2 <= d) dims, "All grids must have at least two entries");
      (Forall (fun h => flt o (fzero o) h = true) steps, "All grids must be monotonically increasing") ]
    (mlr_new o c dims starts steps vals) (mkRegular dims starts steps vals).
Proof.
  intros Hp. unfold mlr_new. rewrite product_fit by auto. cbn [bind checks_in_order].
  split; intros H1; [|replace (zlen vals =? zprod dims) with false by lia; reflexivity].
  replace (zlen vals =? zprod dims) with true by lia. cbn [negb].
  split; intros H2; [apply existsb_lt_false in H2; rewrite H2|].
  2:{ destruct (existsb _ dims) eqn:E; auto. apply existsb_lt_false in E. contradiction. }
  split; intros H3; [rewrite (proj2 (forallb_Forall (fun x => flt o (fzero o) x) steps) H3); reflexivity|].
  destruct (forallb _ steps) eqn:E; auto. apply forallb_Forall in E. contradiction.
Qed.

Lemma new_checks_mlrr maxdims : prefix_products_fit dims -> (length dims <= maxdims)%nat ->
  checks_in_order
    [ (length starts = length dims /\ length steps = length dims /\ zlen vals = zprod dims
        /\ (0 < length dims)%nat, "Dimension mismatch");
      (Forall (fun d => 2 <= d) dims, "All grids must have at least two entries");
      (Forall (fun h => flt o (fzero o) h = true) steps, "All grids must be monotonically increasing") ]
    (mlrr_new o c maxdims dims starts steps vals) (mkRegular dims starts steps vals).
Proof.
  intros Hp Hm. unfold mlrr_new. rewrite product_fit by auto. cbn [bind checks_in_order].
  replace (maxdims <? length dims)%nat with false by lia.
  split; intros H1.
  2:{ replace (negb _) with true by lia. reflexivity. }
  replace (negb _) with false by lia.
  split; intros H2; [apply existsb_lt_false in H2; rewrite H2|].
  2:{ destruct (existsb _ dims) eqn:E; auto. apply existsb_lt_false in E. contradiction. }
  split; intros H3; [rewrite (proj2 (forallb_Forall (fun x => flt o (fzero o) x) steps) H3); reflexivity|].
  destruct (forallb _ steps) eqn:E; auto. apply forallb_Forall in E. contradiction.
Qed.

Lemma new_checks_mcrr maxdims lin : prefix_products_fit dims -> (length dims <= maxdims)%nat ->
  checks_in_order
    [ (length starts = length dims /\ length steps = length dims /\ zlen vals = zprod dims
        /\ (0 < length dims)%nat, "Dimension mismatch");
      (Forall (fun d => 4 <= d) dims, "All grids must have at least four entries");
      (Forall (fun h => flt o (fzero o) h = true) steps, "All grids must be monotonically increasing") ]
    (mcrr_new o c maxdims dims starts steps vals lin) (mkCR (mkRegular dims starts steps vals) lin).
Proof.
  intros Hp Hm. unfold mcrr_new. rewrite product_fit by auto. cbn [bind checks_in_order].
  replace (maxdims <? length dims)%nat with false by lia.
  split; intros H1.
  2:{ replace (negb _) with true by lia. reflexivity. }
  replace (negb _) with false by lia.
  split; intros H2; [apply existsb_lt_false in H2; rewrite H2|].
  2:{ destruct (existsb _ dims) eqn:E; auto. apply existsb_lt_false in E. contradiction. }
  split; intros H3; [rewrite (proj2 (forallb_Forall (fun x => flt o (fzero o) x) steps) H3); reflexivity|].
  destruct (forallb _ steps) eqn:E; auto. apply forallb_Forall in E. contradiction.
Qed.

Lemma new_checks_mcr lin : prefix_products_fit dims ->
  length starts = length dims -> length steps = length dims -> (1 <= length dims)%nat ->
  checks_in_order
    [ (zlen vals = zprod dims, "Dimension mismatch");
      (Forall (fun d => 4 <= d) dims, "All grids must have at least four entries");
      (Forall (fun h => flt o (fzero o) h = true) steps, "All grids must be monotonically increasing") ]
    (mcr_new o c dims starts steps vals lin) (mkCR (mkRegular dims starts steps vals) lin).
Proof.
  intros Hp L1 L2 L3. rewrite (new_flat_rec_reg_cubic (maxdims := length dims)) by (auto; lia).
  assert (H := @new_checks_mcrr (length dims) lin Hp ltac:(lia)).
  cbn [checks_in_order] in *. destruct H as (H1 & H2). split; intros H.
  - apply H1. lia.
  - apply H2. lia.
Qed.

Lemma rect_checks A FP msg (mk : A) (Hnew : outcome A) (H2 : 2 <= FP) :
  prefix_products_fit (map zlen grids) ->
  Hnew = (if negb (zlen vals =? zprod (map zlen grids)) then Err "Dimension mismatch"
          else if existsb (fun x => x <? FP) (map zlen grids) then Err msg
          else do mono <- allM (mono_maybe o) grids ;
               if negb mono then Err "All grids must be monotonically increasing" else Ok mk) ->
  checks_in_order
    [ (zlen vals = zprod (map zlen grids), "Dimension mismatch");
      (Forall (fun g => FP <= zlen g) grids, msg);
      (Forall (first_two_increase o) grids, "All grids must be monotonically increasing") ]
    Hnew mk.
Proof.
  intros Hp ->. cbn [checks_in_order].
  split; intros H1; [|replace (zlen vals =? _) with false by lia; reflexivity].
  replace (zlen vals =? _) with true by lia. cbn [negb].
  split; intros H3.
  2:{ destruct (existsb _ _) eqn:E; auto. apply existsb_lt_false in E.
      apply zlen_dims_ge in E. contradiction. }
  assert (Ex : existsb (fun x => x <? FP) (map zlen grids) = false).
  { apply existsb_lt_false. rewrite Forall_map. auto. }
  rewrite Ex.
  assert (H4 : Forall (fun g => 2 <= zlen g) grids).
  { eapply Forall_impl; [|eauto]. simpl; intros; lia. }
  destruct (allM_mono o H4) as [(-> & H5)|(-> & H5)]; cbn [bind negb]; split; intros H6;
    try contradiction; reflexivity.
Qed.

Lemma new_checks_mlc : prefix_products_fit (map zlen grids) ->
  checks_in_order
    [ (zlen vals = zprod (map zlen grids), "Dimension mismatch");
      (Forall (fun g => 2 <= zlen g) grids, "All grids must have at least 2 entries");
      (Forall (first_two_increase o) grids, "All grids must be monotonically increasing") ]
    (mlc_new o c grids vals) (mkRect grids (map zlen grids) vals).
Proof.
  intros Hp. apply rect_checks; auto; [lia|].
  unfold mlc_new. rewrite product_fit by auto. reflexivity.
Qed.

Lemma new_checks_mcc lin : prefix_products_fit (map zlen grids) ->
  checks_in_order
    [ (zlen vals = zprod (map zlen grids), "Dimension mismatch");
      (Forall (fun g => 4 <= zlen g) grids, "All grids must have at least 4 entries");
      (Forall (first_two_increase o) grids, "All grids must be monotonically increasing") ]
    (mcc_new o c grids vals lin) (mkCC (mkRect grids (map zlen grids) vals) lin).
Proof.
  intros Hp. apply rect_checks; auto; [lia|].
  unfold mcc_new. rewrite product_fit by auto. reflexivity.
Qed.

Lemma new_checks_mlcr maxdims : prefix_products_fit (map zlen grids) ->
  (1 <= length grids <= maxdims)%nat ->
  checks_in_order
    [ (zlen vals = zprod (map zlen grids), "Dimension mismatch");
      (Forall (fun g => 2 <= zlen g) grids, "All grids must have at least 2 entries");
      (Forall (first_two_increase o) grids, "All grids must be monotonically increasing") ]
    (mlcr_new o c maxdims grids vals) (mkRect grids (map zlen grids) vals).
Proof.
  intros Hp Hm. rewrite <- new_flat_rec_rect_linear by auto. apply new_checks_mlc; auto.
Qed.

Lemma new_checks_mccr maxdims lin : prefix_products_fit (map zlen grids) ->
  (1 <= length grids <= maxdims)%nat ->
  checks_in_order
    [ (zlen vals = zprod (map zlen grids), "Dimension mismatch");
      (Forall (fun g => 4 <= zlen g) grids, "All grids must have at least 4 entries");
      (Forall (first_two_increase o) grids, "All grids must be monotonically increasing") ]
    (mccr_new o c maxdims grids vals lin) (mkCC (mkRect grids (map zlen grids) vals) lin).
Proof.
  intros Hp Hm. rewrite <- new_flat_rec_rect_cubic by auto. apply new_checks_mcc; auto.
Qed.

(** ** C15 (builds with overflow checks) *)
Ltac size_tac H :=
  apply bind_ok in H as (nv & Hnv & H);
  match type of H with (if ?b then _ else _) = Ok _ => destruct b eqn:E; try discriminate H end;
  match goal with Hc : ovf_checks c = true |- _ => apply (product_checked _ _ Hc) in Hnv end;
  subst nv; lia.

Lemma size_mlr s : ovf_checks c = true -> mlr_new o c dims starts steps vals = Ok s -> zlen vals = zprod dims.
Proof. intros Hc H. unfold mlr_new in H. size_tac H. Qed.
Lemma size_mlrr m s : ovf_checks c = true -> mlrr_new o c m dims starts steps vals = Ok s -> zlen vals = zprod dims.
Proof. intros Hc H. unfold mlrr_new in H. size_tac H. Qed.
Lemma size_mcr lin s : ovf_checks c = true -> mcr_new o c dims starts steps vals lin = Ok s -> zlen vals = zprod dims.
Proof. intros Hc H. unfold mcr_new in H. size_tac H. Qed.
Lemma size_mcrr m lin s : ovf_checks c = true -> mcrr_new o c m dims starts steps vals lin = Ok s -> zlen vals = zprod dims.
Proof. intros Hc H. unfold mcrr_new in H. size_tac H. Qed.
Lemma size_mlc s : ovf_checks c = true -> mlc_new o c grids vals = Ok s -> zlen vals = zprod (map zlen grids).
Proof. intros Hc H. unfold mlc_new in H. size_tac H. Qed.
Lemma size_mlcr m s : ovf_checks c = true -> mlcr_new o c m grids vals = Ok s -> zlen vals = zprod (map zlen grids).
Proof. intros Hc H. unfold mlcr_new in H. destruct (_ <? _)%nat; [discriminate|]. size_tac H. Qed.
Lemma size_mcc lin s : ovf_checks c = true -> mcc_new o c grids vals lin = Ok s -> zlen vals = zprod (map zlen grids).
Proof. intros Hc H. unfold mcc_new in H. size_tac H. Qed.
Lemma size_mccr m lin s : ovf_checks c = true -> mccr_new o c m grids vals lin = Ok s -> zlen vals = zprod (map zlen grids).
Proof. intros Hc H. unfold mccr_new in H. destruct (_ <? _)%nat; [discriminate|]. size_tac H. Qed.

End Gen.
