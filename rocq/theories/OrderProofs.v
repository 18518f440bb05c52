(** Cell search on rectilinear grids: statements about constructed interpolators (C27). *)
From Coq Require Import PeanoNat Bool ZifyBool ZifyNat.
From Verif Require Import Base Ops ModelCore ModelLinear ModelCubic ModelOneDim Spec SpecOrder.
From Verif Require Import CoreLemmas SearchLemmas MethodLemmas MethodChar GenLemmas OrderLemmas.
Open Scope Z_scope.

Section O.
Context {F : Type} (o : Ops F) (c : cfg).

Lemma wf_axis FP (s : rectilinear F) k g : 1 <= FP -> rect_wf FP s -> nth_error (g_grids s) k = Some g ->
  nth_error (g_dims s) k = Some (zlen g) /\ FP <= zlen g <= isize_max.
Proof.
  intros HF (H1 & H2 & H3 & H4) Hk.
  assert (E : nth_error (g_dims s) k = Some (zlen g)) by (rewrite H2, nth_error_map, Hk; reflexivity).
  split; auto. rewrite Forall_forall in H3. assert (I := H3 _ (nth_error_In _ _ Hk)). split; auto.
  assert (L : (k < length (g_dims s))%nat) by (apply nth_error_Some; congruence).
  rewrite <- (nth_error_nth _ _ 0 E). eapply dims_bound; eauto. rewrite H2.
  apply Forall_forall. intros d Hd. apply in_map_iff in Hd as (g' & <- & Hg). specialize (H3 _ Hg). lia.
Qed.

Theorem C27_proof_linear grids vals s k g x :
  lt_transitive o -> rect_input c grids vals -> mlc_new o c grids vals = Ok s ->
  nth_error grids k = Some g -> increasing_grid o g ->
  exists i, rect_get_loc o c s x k = Ok i /\ bracketing_cell o x g i /\
    i = Z.min (Z.max (count_below o x g - 1) 0) (zlen g - 2).
Proof.
  intros T Hi Hn Hk Ig. destruct (mlc_new_inv o Hi Hn) as (W & ->).
  destruct (@wf_axis 2 _ k g ltac:(lia) W Hk) as (Ed & B).
  assert (P := @increasing_prefix _ o g x T Ig).
  exists (clipped_cell o x g). split; [|split; [|reflexivity]].
  - apply rect_get_loc_spec; auto.
  - apply clipped_bracketing; auto. lia.
Qed.

Theorem C27_proof_linear_recursive m grids vals s k g x :
  lt_transitive o -> rect_input c grids vals -> mlcr_new o c m grids vals = Ok s ->
  nth_error grids k = Some g -> increasing_grid o g ->
  exists i, rect_get_loc o c s x k = Ok i /\ bracketing_cell o x g i /\
    i = Z.min (Z.max (count_below o x g - 1) 0) (zlen g - 2).
Proof.
  intros T Hi Hn Hk Ig. destruct (mlcr_new_inv o m Hi Hn) as (W & -> & _).
  destruct (@wf_axis 2 _ k g ltac:(lia) W Hk) as (Ed & B).
  assert (P := @increasing_prefix _ o g x T Ig).
  exists (clipped_cell o x g). split; [|split; [|reflexivity]].
  - apply rect_get_loc_spec; auto.
  - apply clipped_bracketing; auto. lia.
Qed.

(** The cell of the grid used by the cubic method, from the first node of its four-node footprint
    and the saturation flag. *)
Definition footprint_cell (origin : Z) (sat : saturation) : Z :=
  match sat with
  | OutsideLow | InsideLow => origin
  | SatNone => origin + 1
  | InsideHigh | OutsideHigh => origin + 2
  end.

Lemma crect_facts (s : rectilinear F) k g x : lt_transitive o -> rect_wf 4 s ->
  nth_error (g_grids s) k = Some g -> increasing_grid o g ->
  exists origin sat, crect_get_loc o c s x k = Ok (origin, sat) /\ 0 <= origin <= zlen g - 4 /\
    bracketing_cell o x g (footprint_cell origin sat) /\
    (sat = OutsideHigh <-> above_grid o x g) /\ (sat = OutsideLow <-> not_above_first o x g).
Proof.
  intros T W Hk Ig.
  destruct (@wf_axis 4 _ k g ltac:(lia) W Hk) as (Ed & B).
  assert (P := @increasing_prefix _ o g x T Ig).
  destruct (@search_spec _ o g x P) as (_ & Lo & Hi & R).
  assert (Bc := @clipped_bracketing _ o g x P ltac:(lia)). unfold clipped_cell in Bc.
  rewrite (@crect_get_loc_spec _ o c _ _ _ _ Hk Ed P B).
  set (n := count_below o x g) in *. cbv zeta.
  do 2 eexists. split; [reflexivity|]. split; [lia|].
  assert (A : above_grid o x g <-> n = zlen g).
  { split.
    - intros H. destruct (Z.eq_dec n (zlen g)) as [E|E]; auto. exfalso.
      assert (Ln : (Z.to_nat n < length g)%nat) by (unfold zlen in *; lia).
      destruct (nth_error g (Z.to_nat n)) as [a|] eqn:Ea; [|apply nth_error_None in Ea; lia].
      specialize (Hi (Z.to_nat n) a ltac:(lia) Ea). 
      rewrite (H a (nth_error_In _ _ Ea)) in Hi. discriminate.
    - intros E a Ia. apply In_nth_error in Ia as (j & Ej). apply (Lo j a); auto.
      assert (j < length g)%nat by (apply nth_error_Some; congruence). unfold zlen in *. lia. }
  assert (N : not_above_first o x g <-> n = 0).
  { split.
    - intros H. destruct (Z.eq_dec n 0) as [E|E]; auto. exfalso.
      destruct (nth_error g 0) as [a|] eqn:Ea; [|apply nth_error_None in Ea; unfold zlen in *; lia].
      specialize (Lo 0%nat a ltac:(lia) Ea). rewrite (H a (nth_error_In _ _ Ea)) in Lo. discriminate.
    - intros E a Ia. apply In_nth_error in Ia as (j & Ej). apply (Hi j a); auto. lia. }
  destruct (n =? 0) eqn:E0; [|destruct (n =? 1) eqn:E1; [|destruct (n =? zlen g) eqn:E2; [|destruct (n =? zlen g - 1) eqn:E3]]];
    cbn [footprint_cell].
  all: split; [match goal with |- bracketing_cell _ _ _ ?e => replace e with (Z.min (Z.max (n - 1) 0) (zlen g - 2)) by lia end; exact Bc|].
  all: rewrite A, N; split; split; intros; try discriminate; auto; lia.
Qed.

Theorem C27_proof_cubic grids vals lin s k g x :
  lt_transitive o -> rect_input c grids vals -> mcc_new o c grids vals lin = Ok s ->
  nth_error grids k = Some g -> increasing_grid o g ->
  exists origin sat, crect_get_loc o c (cc_base s) x k = Ok (origin, sat) /\ 0 <= origin <= zlen g - 4 /\
    bracketing_cell o x g (footprint_cell origin sat) /\
    (sat = OutsideHigh <-> above_grid o x g) /\ (sat = OutsideLow <-> not_above_first o x g).
Proof.
  intros T Hi Hn Hk Ig. destruct (mcc_new_inv o lin Hi Hn) as (W & ->). eapply crect_facts; eauto.
Qed.

Theorem C27_proof_one_dim grid vals g x :
  lt_transitive o -> increasing_grid o grid -> (zlen vals <= isize_max) -> c1_new grid vals = Ok g ->
  exists i e, c1_index o c g x = Ok (i, e) /\ bracketing_cell o x grid i /\
    i = Z.min (Z.max (count_below o x grid - 1) 0) (zlen grid - 2).
Proof.
  intros T Ig Hn Hg. unfold c1_new in Hg. destruct (_ || _) eqn:Ec; [discriminate|].
  inversion Hg; subst g; clear Hg.
  assert (P := @increasing_prefix _ o grid x T Ig).
  assert (B : 2 <= zlen grid <= isize_max) by (unfold zlen in *; lia).
  destruct (@c1_index_spec _ o c grid vals x P B) as (e & E & _).
  exists (clipped_cell o x grid), e. split; auto. split; [|reflexivity]. apply clipped_bracketing; auto. lia.
Qed.
End O.
