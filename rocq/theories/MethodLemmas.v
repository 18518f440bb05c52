(** Each N-dimensional evaluator, for any arithmetic, is: find the cell on every
    axis, then evaluate the tensor-product formula [tens] on the footprint. *)
From Coq Require Import ZifyBool ZifyNat PeanoNat.
From Verif Require Import Base Ops ModelCore ModelLinear ModelNearest ModelCubic.
From Verif Require Import Spec CoreLemmas TensorLemmas.

(** Footprint within the grid on every axis. *)
Definition foot_in (FP : nat) (dims origin : list Z) : Prop :=
  Forall2 (fun d o => 0 <= o /\ o + Z.of_nat FP <= d) dims origin.

Lemma foot_in_length FP dims origin : foot_in FP dims origin -> length dims = length origin.
Proof. induction 1; simpl; auto. Qed.

Lemma foot_in_nth FP dims origin k : foot_in FP dims origin -> (k < length origin)%nat ->
  0 <= nth k origin 0 /\ nth k origin 0 + Z.of_nat FP <= nth k dims 0.
Proof.
  intros H. revert k. induction H; intros k Hk; simpl in *; [lia|].
  destruct k; auto. apply IHForall2; lia.
Qed.

Lemma Forall2_nth_intro A B (P : A -> B -> Prop) da db la lb :
  length la = length lb ->
  (forall k, (k < length la)%nat -> P (nth k la da) (nth k lb db)) -> Forall2 P la lb.
Proof.
  revert lb. induction la as [|a la IH]; destruct lb as [|b lb]; simpl; intros Hl H; try lia;
    constructor.
  - apply (H 0%nat); lia.
  - apply IH; [lia|]. intros k Hk. apply (H (S k)); lia.
Qed.

Lemma foot_in_intro FP dims origin : length dims = length origin ->
  (forall k, (k < length dims)%nat ->
     0 <= nth k origin 0 /\ nth k origin 0 + Z.of_nat FP <= nth k dims 0) ->
  foot_in FP dims origin.
Proof. intros. apply Forall2_nth_intro with (da := 0) (db := 0); auto. Qed.

Lemma foot_in_shape FP dims origin s : foot_in FP dims origin ->
  in_foot FP origin 0 s -> in_shape dims s.
Proof.
  intros Hf (Hl & H). assert (L := foot_in_length Hf).
  apply Forall2_nth_intro with (da := 0) (db := 0); [lia|].
  intros k Hk. specialize (H k ltac:(lia)). simpl in H.
  assert (G := @foot_in_nth _ _ _ k Hf ltac:(lia)). lia.
Qed.

Lemma foot_in_pos FP dims origin : (1 <= FP)%nat -> foot_in FP dims origin -> Forall (fun d => 1 <= d) dims.
Proof. intros HF. induction 1; constructor; auto. lia. Qed.

Lemma zprod_ge_each dims d : Forall (fun d => 1 <= d) dims -> In d dims -> d <= zprod dims.
Proof.
  induction 1 as [|d0 ds H H0 IH]; [intros []|]. rewrite zprod_cons. intros [->|Hin].
  - assert (1 <= zprod ds) by (apply zprod_pos; auto). nia.
  - specialize (IH Hin). assert (1 <= zprod ds) by (apply zprod_pos; auto). nia.
Qed.

(** Well-formed values array: C-ordered, complete, and no longer than a Rust slice
    can be. *)
Definition vals_wf {F} (dims : list Z) (vals : list F) : Prop :=
  zlen vals = zprod dims /\ zlen vals <= isize_max.

Lemma mapM_snoc_nth A (d : A) (f : nat -> outcome A) n l :
  mapM f (seq 0 n) = Ok l -> forall k, (k < n)%nat -> f k = Ok (nth k l d).
Proof.
  intros H k Hk. destruct (@mapM_nth _ _ _ _ _ k k H) as (b & E & Hb).
  - rewrite nth_error_nth' with (d := 0%nat) by (rewrite seq_length; lia).
    rewrite seq_nth by lia. reflexivity.
  - rewrite E. f_equal. symmetry. apply nth_error_nth; auto.
Qed.

Section Gen.
Context {F : Type} (c : cfg) (FP : nat).
Hypothesis HFP : (2 <= FP)%nat.

Lemma leaf_index dims origin (vals : list F) z s :
  vals_wf dims vals -> foot_in FP dims origin -> in_foot FP origin 0 s ->
  index_arr c s (strides dims) vals = Ok (entry z dims vals s).
Proof.
  intros (Hv & Hm) Hf Hs. apply index_arr_ok; auto.
  - eapply foot_in_shape; eauto.
  - unfold two64, isize_max in *. lia.
Qed.

Lemma flat_char dims origin (vals : list F) z off node nd :
  vals_wf dims vals -> foot_in FP dims origin -> (0 < length dims)%nat ->
  (forall i k, off i k = Z.of_nat ((i / FP ^ k) mod FP)) ->
  (forall k vs, (k < length dims)%nat -> length vs = FP -> node k vs = Ok (nd k vs)) ->
  flat_eval FP (length dims) z (flat_leaf c off origin (strides dims) vals) node
  = Ok (tens FP (entry z dims vals) nd origin (length dims) []).
Proof.
  intros Hv Hf Hn Hoff Hnode. assert (L := foot_in_length Hf).
  rewrite L in *. apply flat_eval_spec; auto.
  intros i Hi. unfold flat_leaf.
  rewrite (mapM_ok_map _ (fun k => nth k origin 0 + off i k)).
  - cbn [bind]. erewrite leaf_index; eauto.
    + do 2 f_equal. unfold suffix. rewrite Nat.sub_0_r. apply map_ext. intros k.
      rewrite Nat.sub_0_r, Hoff. reflexivity.
    + replace (map _ _) with (suffix FP origin 0 i).
      * apply suffix_in_foot; auto.
      * unfold suffix. rewrite Nat.sub_0_r. apply map_ext. intros k.
        rewrite Nat.sub_0_r, Hoff. reflexivity.
  - intros k Hk. apply in_seq in Hk. rewrite (aget_nth _ 0) by lia. cbn [bind].
    assert (G := @foot_in_nth _ _ _ k Hf ltac:(lia)).
    assert (U := Nat.mod_upper_bound (i / FP ^ k) FP ltac:(lia)).
    rewrite Hoff. apply usize_add_ok.
    assert (In (nth k dims 0) dims) by (apply nth_In; lia).
    assert (nth k dims 0 <= zprod dims).
    { apply zprod_ge_each; auto. eapply foot_in_pos; [|eauto]. lia. }
    destruct Hv. unfold two64, isize_max in *. lia.
Qed.

Lemma rec_char dims origin (vals : list F) z node nd :
  vals_wf dims vals -> foot_in FP dims origin ->
  (forall k vs, (k < length dims)%nat -> length vs = FP -> node k vs = Ok (nd k vs)) ->
  exists loc, populate c FP origin (strides dims) vals node (length dims) origin
  = Ok (tens FP (entry z dims vals) nd origin (length dims) [], loc).
Proof.
  intros Hv Hf Hnode. assert (L := foot_in_length Hf). rewrite L in *.
  destruct (@populate_spec F c FP HFP origin (entry z dims vals) nd (strides dims) vals node)
    with (k := length origin) (loc := origin) as (loc' & E & _); auto.
  - intros k Hk. assert (G := @foot_in_nth _ _ _ k Hf Hk).
    assert (In (nth k dims 0) dims) by (apply nth_In; lia).
    assert (nth k dims 0 <= zprod dims).
    { apply zprod_ge_each; auto. eapply foot_in_pos; [|eauto]. lia. }
    destruct Hv. unfold two64, isize_max in *. lia.
  - intros s Hs. eapply leaf_index; eauto.
  - rewrite skipn_all. apply in_foot_nil.
  - rewrite skipn_all in E. eauto.
Qed.
End Gen.

(** ** Vertex offsets *)
Lemma offset_bits i k w :
  N.shiftr (N.land (N.of_nat i) (N.shiftl (N.ones w) k)) k
  = ((N.of_nat i / 2 ^ k) mod 2 ^ w)%N.
Proof.
  rewrite N.shiftr_land, N.shiftr_shiftl_l, N.sub_diag, N.shiftl_0_r by lia.
  rewrite N.land_ones, N.shiftr_div_pow2. reflexivity.
Qed.

Lemma offset2_spec i k : offset2 i k = Z.of_nat ((i / 2 ^ k) mod 2).
Proof.
  unfold offset2. change 1%N with (N.ones 1). rewrite offset_bits.
  change (2 ^ 1)%N with 2%N.
  rewrite Nat2Z.inj_mod, Nat2Z.inj_div, Nat2Z.inj_pow.
  rewrite N2Z.inj_mod, N2Z.inj_div, N2Z.inj_pow, !nat_N_Z. reflexivity.
Qed.

Lemma offset4_spec i k : offset4 i k = Z.of_nat ((i / 4 ^ k) mod 4).
Proof.
  unfold offset4. change 3%N with (N.ones 2). rewrite offset_bits.
  change (2 ^ 2)%N with 4%N.
  rewrite Nat2Z.inj_mod, Nat2Z.inj_div, Nat2Z.inj_pow.
  rewrite N2Z.inj_mod, N2Z.inj_div, N2Z.inj_pow, N2Z.inj_mul, !nat_N_Z.
  change (Z.of_N 2) with 2. change (Z.of_N 4) with (Z.of_nat 4).
  rewrite Z.pow_mul_r by lia. reflexivity.
Qed.
