(** Products, sums, slices, nesting, refinement and cropping, for the interpolators. *)
From Coq Require Import Reals Lra PeanoNat Bool ZifyBool ZifyNat.
From Verif Require Import Base Ops RInst ModelLinear ModelNearest ModelCubic Spec SpecReal.
From Verif Require Import CoreLemmas MethodChar RTensor R1D RChar Interpolators REval RProofs RProofs2 RProofs3 SpecSplit Split.
Unset Implicit Arguments.
Open Scope list_scope.
Open Scope R_scope.

Lemma Ok_inj (a b : R) : Ok a = Ok b -> a = b.
Proof. intros H. injection H. auto. Qed.

Lemma good_app FP (l l' : list axis) : Forall (good_axis FP) (l ++ l') -> Forall (good_axis FP) l /\ Forall (good_axis FP) l'.
Proof. apply Forall_app. Qed.

Lemma app_len (l l' : list axis) (x x' : list R) : length x = length l -> length x' = length l' ->
  length (x ++ x') = length (l ++ l').
Proof. intros. rewrite !app_length. lia. Qed.

Lemma mid_len (l l' : list axis) a (x x' : list R) t : length x = length l -> length x' = length l' ->
  length (x ++ t :: x') = length (l ++ a :: l').
Proof. intros. rewrite !app_length. simpl. lia. Qed.

(** ** Nearest nodes of concatenated grids *)
Definition near (axes : list axis) (x : list R) (idx : list Z) : Prop :=
  length x = length axes /\ Forall2 (fun p i => nearest_node (fst p) (snd p) i) (combine axes x) idx.

Lemma near_nodes axes x idx : near axes x idx <-> nearest_nodes axes x idx.
Proof.
  unfold near, nearest_nodes. revert x idx. induction axes as [|a axes IH]; intros x idx.
  - destruct x as [|t x]; [|split; intros (H & _); discriminate].
    split.
    + intros (_ & H). inversion H; subst. split; auto. split; auto. intros [|k] b Hk; discriminate.
    + intros (_ & H & _). destruct idx; [|discriminate]. split; auto. constructor.
  - destruct x as [|t x]; [split; intros (H & _); discriminate|]. split.
    + intros (L & H). inversion H as [|? i ? is Hi Hr]; subst. cbn [fst snd] in Hi. simpl in L.
      destruct (proj1 (IH x is)) as (_ & Li & Hk); [split; [lia|exact Hr]|].
      split; [simpl; lia|]. split; [simpl; lia|]. intros [|k] b Hb; [injection Hb as <-; exact Hi|exact (Hk k b Hb)].
    + intros (L & Li & H). destruct idx as [|i idx]; [discriminate|]. simpl in L, Li. split; [simpl; lia|].
      constructor; [exact (H 0%nat a eq_refl)|]. apply (proj2 (IH x idx)).
      split; [lia|]. split; [lia|]. intros k. exact (H (S k)).
Qed.

Lemma near_app a1 a2 x1 x2 i1 i2 : nearest_nodes a1 x1 i1 -> nearest_nodes a2 x2 i2 ->
  nearest_nodes (a1 ++ a2) (x1 ++ x2) (i1 ++ i2).
Proof.
  rewrite <- !near_nodes. intros (L1 & H1) (L2 & H2). split; [apply app_len; auto|].
  replace (combine (a1 ++ a2) (x1 ++ x2)) with (combine a1 x1 ++ combine a2 x2); [apply Forall2_app; auto|].
  clear - L1. revert x1 L1. induction a1 as [|a a1 IH]; intros [|t x1] L; try discriminate; auto.
  simpl. f_equal. apply IH. simpl in L. lia.
Qed.

Lemma near_split a1 a2 x1 x2 idx : length x1 = length a1 -> nearest_nodes (a1 ++ a2) (x1 ++ x2) idx ->
  exists i1 i2, idx = i1 ++ i2 /\ nearest_nodes a1 x1 i1 /\ nearest_nodes a2 x2 i2.
Proof.
  rewrite <- near_nodes. intros L1 (L & H). rewrite !app_length in L.
  replace (combine (a1 ++ a2) (x1 ++ x2)) with (combine a1 x1 ++ combine a2 x2) in H.
  - apply Forall2_app_inv_l in H. destruct H as (i1 & i2 & H1 & H2 & E). exists i1, i2. split; auto.
    rewrite <- !near_nodes. split; split; auto. lia.
  - clear - L1. revert x1 L1. induction a1 as [|a a1 IH]; intros [|t x1] L; try discriminate; auto.
    simpl. f_equal. apply IH. simpl in L. lia.
Qed.

Lemma near_at_node a i : good_axis 2 a -> (0 <= i < npts a)%Z -> nearest_node a (coord a i) i.
Proof.
  intros (I & N) Hi. split; auto. intros j Hj. rewrite Rminus_diag_eq, Rabs_R0 by auto. split; [apply Rabs_pos|].
  intros E. destruct (Z.eq_dec i j); [lia|]. exfalso. symmetry in E. revert E. apply Rabs_no_R0.
  destruct (Z_lt_le_dec i j); [assert (K := I i j ltac:(lia) ltac:(lia))|assert (K := I j i ltac:(lia) ltac:(lia))]; lra.
Qed.

Lemma near_one a t i : nearest_node a t i -> nearest_nodes [a] [t] [i].
Proof. intros H. apply near_nodes. split; auto. constructor; auto. Qed.

Lemma near_len axes x idx : nearest_nodes axes x idx -> length idx = length axes.
Proof. intros (_ & H & _). exact H. Qed.

(** ** Products and sums *)
Section Two.
Variables (c c1 c2 : cfg) (u v w : list R) (a1 a2 : list axis) (x1 x2 : list R).
Variables (dom dom1 dom2 : list R -> Prop) (eval eval1 eval2 : list R -> outcome R).
Hypothesis L1 : length x1 = length a1.
Hypothesis L2 : length x2 = length a2.
Hypothesis D : dom (x1 ++ x2).
Hypothesis D1 : dom1 x1.
Hypothesis D2 : dom2 x2.
Let d1 := map npts a1.
Let d2 := map npts a2.

Lemma linear_product : multilinear c w (a1 ++ a2) dom eval -> multilinear c1 u a1 dom1 eval1 ->
  multilinear c2 v a2 dom2 eval2 -> product_data d1 d2 u v w ->
  exists r1 r2, eval1 x1 = Ok r1 /\ eval2 x2 = Ok r2 /\ eval (x1 ++ x2) = Ok (r1 * r2).
Proof using All.
  intros M M1 M2 P. destruct (multilinear_value M) as (_ & _ & E).
  destruct (multilinear_value M1) as (G1 & _ & E1). destruct (multilinear_value M2) as (G2 & _ & E2).
  exists (tenL (ops1 lin1 a1 x1) (entry 0 d1 u)), (tenL (ops1 lin1 a2 x2) (entry 0 d2 v)).
  rewrite E1, E2, E by (auto; apply app_len; auto). repeat split; auto. f_equal.
  exact (T_product 2 lin1 lin_lf lin_mass lin_node a1 a2 x1 x2 u v w L1 L2 G1 G2 P).
Qed.

Lemma linear_sum : multilinear c w (a1 ++ a2) dom eval -> multilinear c1 u a1 dom1 eval1 ->
  multilinear c2 v a2 dom2 eval2 -> sum_data d1 d2 u v w ->
  exists r1 r2, eval1 x1 = Ok r1 /\ eval2 x2 = Ok r2 /\ eval (x1 ++ x2) = Ok (r1 + r2).
Proof using All.
  intros M M1 M2 P. destruct (multilinear_value M) as (_ & _ & E).
  destruct (multilinear_value M1) as (G1 & _ & E1). destruct (multilinear_value M2) as (G2 & _ & E2).
  exists (tenL (ops1 lin1 a1 x1) (entry 0 d1 u)), (tenL (ops1 lin1 a2 x2) (entry 0 d2 v)).
  rewrite E1, E2, E by (auto; apply app_len; auto). repeat split; auto. f_equal.
  exact (T_sum 2 lin1 lin_lf lin_mass lin_node a1 a2 x1 x2 u v w L1 L2 G1 G2 P).
Qed.

Lemma cubic_product lin : multicubic c lin w (a1 ++ a2) dom eval -> multicubic c1 lin u a1 dom1 eval1 ->
  multicubic c2 lin v a2 dom2 eval2 -> product_data d1 d2 u v w ->
  exists r1 r2, eval1 x1 = Ok r1 /\ eval2 x2 = Ok r2 /\ eval (x1 ++ x2) = Ok (r1 * r2).
Proof using All.
  intros M M1 M2 P. destruct (multicubic_value M) as (_ & _ & E).
  destruct (multicubic_value M1) as (G1 & _ & E1). destruct (multicubic_value M2) as (G2 & _ & E2).
  exists (tenL (ops1 (cub1 lin) a1 x1) (entry 0 d1 u)), (tenL (ops1 (cub1 lin) a2 x2) (entry 0 d2 v)).
  rewrite E1, E2, E by (auto; apply app_len; auto). repeat split; auto. f_equal.
  exact (T_product 4 (cub1 lin) (cub_lf lin) (cub_mass lin) (cub_node lin) a1 a2 x1 x2 u v w L1 L2 G1 G2 P).
Qed.

Lemma cubic_sum lin : multicubic c lin w (a1 ++ a2) dom eval -> multicubic c1 lin u a1 dom1 eval1 ->
  multicubic c2 lin v a2 dom2 eval2 -> sum_data d1 d2 u v w ->
  exists r1 r2, eval1 x1 = Ok r1 /\ eval2 x2 = Ok r2 /\ eval (x1 ++ x2) = Ok (r1 + r2).
Proof using All.
  intros M M1 M2 P. destruct (multicubic_value M) as (_ & _ & E).
  destruct (multicubic_value M1) as (G1 & _ & E1). destruct (multicubic_value M2) as (G2 & _ & E2).
  exists (tenL (ops1 (cub1 lin) a1 x1) (entry 0 d1 u)), (tenL (ops1 (cub1 lin) a2 x2) (entry 0 d2 v)).
  rewrite E1, E2, E by (auto; apply app_len; auto). repeat split; auto. f_equal.
  exact (T_sum 4 (cub1 lin) (cub_lf lin) (cub_mass lin) (cub_node lin) a1 a2 x1 x2 u v w L1 L2 G1 G2 P).
Qed.

Lemma nearest_two : nearest_nd c w (a1 ++ a2) dom eval -> nearest_nd c1 u a1 dom1 eval1 ->
  nearest_nd c2 v a2 dom2 eval2 -> exists i j, in_shape d1 i /\ in_shape d2 j /\
  eval1 x1 = Ok (entry 0 d1 u i) /\ eval2 x2 = Ok (entry 0 d2 v j) /\
  eval (x1 ++ x2) = Ok (entry 0 (d1 ++ d2) w (i ++ j)).
Proof using All.
  intros M M1 M2. destruct (nearest_value M) as (_ & _ & E).
  destruct (nearest_value M1) as (_ & _ & E1). destruct (nearest_value M2) as (_ & _ & E2).
  destruct (E1 x1 L1 D1) as (i & N1 & V1). destruct (E2 x2 L2 D2) as (j & N2 & V2).
  destruct (E (x1 ++ x2) (app_len _ _ _ _ L1 L2) D) as (k & N & V).
  exists i, j. split; [exact (nearest_nodes_shape N1)|]. split; [exact (nearest_nodes_shape N2)|].
  split; auto. split; auto. rewrite V, map_app.
  rewrite (nearest_nodes_unique N (near_app _ _ _ _ _ _ N1 N2)). reflexivity.
Qed.

Lemma nearest_product : nearest_nd c w (a1 ++ a2) dom eval -> nearest_nd c1 u a1 dom1 eval1 ->
  nearest_nd c2 v a2 dom2 eval2 -> product_data d1 d2 u v w ->
  exists r1 r2, eval1 x1 = Ok r1 /\ eval2 x2 = Ok r2 /\ eval (x1 ++ x2) = Ok (r1 * r2).
Proof using All.
  intros M M1 M2 P. destruct (nearest_two M M1 M2) as (i & j & S1 & S2 & V1 & V2 & V).
  eexists. eexists. split; [exact V1|]. split; [exact V2|]. rewrite V. f_equal. apply P; auto.
Qed.

Lemma nearest_sum : nearest_nd c w (a1 ++ a2) dom eval -> nearest_nd c1 u a1 dom1 eval1 ->
  nearest_nd c2 v a2 dom2 eval2 -> sum_data d1 d2 u v w ->
  exists r1 r2, eval1 x1 = Ok r1 /\ eval2 x2 = Ok r2 /\ eval (x1 ++ x2) = Ok (r1 + r2).
Proof using All.
  intros M M1 M2 P. destruct (nearest_two M M1 M2) as (i & j & S1 & S2 & V1 & V2 & V).
  eexists. eexists. split; [exact V1|]. split; [exact V2|]. rewrite V. f_equal. apply P; auto.
Qed.

(** ** One group of axes after the other *)

(** w2 holds, for every node j of the axes a2, the interpolant along a1 of the block j. *)
Lemma linear_nested w2 : multilinear c w (a1 ++ a2) dom eval -> multilinear c2 w2 a2 dom2 eval2 ->
  (forall j, in_shape d2 j -> exists c' u' dom' eval',
     multilinear c' u' a1 dom' eval' /\ dom' x1 /\ block_data d1 d2 j w u' /\ eval' x1 = Ok (entry 0 d2 w2 j)) ->
  eval (x1 ++ x2) = eval2 x2.
Proof using L1 L2 D D2.
  intros M M2 P. destruct (multilinear_value M) as (G & _ & E). destruct (good_app _ _ _ G) as (G1 & G2).
  destruct (multilinear_value M2) as (_ & _ & E2).
  rewrite E2, E by (auto; apply app_len; auto). f_equal.
  apply (T_nested 2 lin1 lin_lf lin_mass lin_node a1 a2 x1 x2 w w2 L1 L2 G1 G2).
  intros j Hj. destruct (P j Hj) as (c' & u' & dom' & eval' & M' & D' & B & V).
  exists u'. split; [exact B|]. destruct (multilinear_value M') as (_ & _ & E').
  rewrite E' in V by auto. apply Ok_inj; exact V.
Qed.

Lemma cubic_nested lin w2 : multicubic c lin w (a1 ++ a2) dom eval -> multicubic c2 lin w2 a2 dom2 eval2 ->
  (forall j, in_shape d2 j -> exists c' u' dom' eval',
     multicubic c' lin u' a1 dom' eval' /\ dom' x1 /\ block_data d1 d2 j w u' /\ eval' x1 = Ok (entry 0 d2 w2 j)) ->
  eval (x1 ++ x2) = eval2 x2.
Proof using L1 L2 D D2.
  intros M M2 P. destruct (multicubic_value M) as (G & _ & E). destruct (good_app _ _ _ G) as (G1 & G2).
  destruct (multicubic_value M2) as (_ & _ & E2).
  rewrite E2, E by (auto; apply app_len; auto). f_equal.
  apply (T_nested 4 (cub1 lin) (cub_lf lin) (cub_mass lin) (cub_node lin) a1 a2 x1 x2 w w2 L1 L2 G1 G2).
  intros j Hj. destruct (P j Hj) as (c' & u' & dom' & eval' & M' & D' & B & V).
  exists u'. split; [exact B|]. destruct (multicubic_value M') as (_ & _ & E').
  rewrite E' in V by auto. apply Ok_inj; exact V.
Qed.

Lemma nearest_nested w2 : nearest_nd c w (a1 ++ a2) dom eval -> nearest_nd c2 w2 a2 dom2 eval2 ->
  (forall j, in_shape d2 j -> exists c' u' dom' eval',
     nearest_nd c' u' a1 dom' eval' /\ dom' x1 /\ block_data d1 d2 j w u' /\ eval' x1 = Ok (entry 0 d2 w2 j)) ->
  eval (x1 ++ x2) = eval2 x2.
Proof using L1 L2 D D2.
  intros M M2 P. destruct (nearest_value M) as (_ & _ & E). destruct (nearest_value M2) as (_ & _ & E2).
  destruct (E2 x2 L2 D2) as (j & N2 & V2). destruct (P j (nearest_nodes_shape N2)) as (c' & u' & dom' & eval' & M' & D' & B & V').
  destruct (nearest_value M') as (_ & _ & E'). destruct (E' x1 L1 D') as (i & N1 & V1).
  destruct (E (x1 ++ x2) (app_len _ _ _ _ L1 L2) D) as (k & N & V).
  rewrite V, V2, map_app, (nearest_nodes_unique N (near_app _ _ _ _ _ _ N1 N2)).
  transitivity (Ok (entry 0 d1 u' i)); [f_equal; symmetry; exact (B i (nearest_nodes_shape N1))|].
  transitivity (eval' x1); [symmetry; exact V1|exact V'].
Qed.
End Two.

(** ** Slices *)
Section Slice.
Variables (c c' : cfg) (w s : list R) (a1 a2 : list axis) (a : axis) (x1 x2 : list R) (m : Z).
Variables (dom dom' : list R -> Prop) (eval eval' : list R -> outcome R).
Hypothesis L1 : length x1 = length a1.
Hypothesis L2 : length x2 = length a2.
Hypothesis D : dom (x1 ++ coord a m :: x2).
Hypothesis D' : dom' (x1 ++ x2).
Hypothesis Hm : (0 <= m < npts a)%Z.
Hypothesis P : slice_data (map npts a1) (npts a) (map npts a2) m w s.

Lemma linear_slice : multilinear c w (a1 ++ a :: a2) dom eval -> multilinear c' s (a1 ++ a2) dom' eval' ->
  eval (x1 ++ coord a m :: x2) = eval' (x1 ++ x2).
Proof using All.
  intros M M'. destruct (multilinear_value M) as (G & _ & E). destruct (multilinear_value M') as (_ & _ & E').
  destruct (good_app _ _ _ G) as (G1 & G2). inversion G2 as [|? ? Ga Gr]; subst.
  rewrite E, E' by (auto; solve [apply app_len; auto|apply mid_len; auto]). f_equal.
  exact (T_slice 2 lin1 lin_lf lin_mass lin_node a1 a a2 x1 x2 m w s L1 L2 G1 Ga Gr Hm P).
Qed.

Lemma cubic_slice lin : multicubic c lin w (a1 ++ a :: a2) dom eval -> multicubic c' lin s (a1 ++ a2) dom' eval' ->
  eval (x1 ++ coord a m :: x2) = eval' (x1 ++ x2).
Proof using All.
  intros M M'. destruct (multicubic_value M) as (G & _ & E). destruct (multicubic_value M') as (_ & _ & E').
  destruct (good_app _ _ _ G) as (G1 & G2). inversion G2 as [|? ? Ga Gr]; subst.
  rewrite E, E' by (auto; solve [apply app_len; auto|apply mid_len; auto]). f_equal.
  exact (T_slice 4 (cub1 lin) (cub_lf lin) (cub_mass lin) (cub_node lin) a1 a a2 x1 x2 m w s L1 L2 G1 Ga Gr Hm P).
Qed.

Lemma nearest_slice : nearest_nd c w (a1 ++ a :: a2) dom eval -> nearest_nd c' s (a1 ++ a2) dom' eval' ->
  eval (x1 ++ coord a m :: x2) = eval' (x1 ++ x2).
Proof using All.
  intros M M'. destruct (nearest_value M) as (G & _ & E). destruct (nearest_value M') as (_ & _ & E').
  destruct (good_app _ _ _ G) as (G1 & G2). inversion G2 as [|? ? Ga Gr]; subst.
  destruct (E _ (mid_len a1 a2 a x1 x2 (coord a m) L1 L2) D) as (k & N & V).
  destruct (E' _ (app_len _ _ _ _ L1 L2) D') as (k' & N' & V').
  destruct (near_split _ _ _ _ _ L1 N') as (i & j & -> & N1 & N2).
  assert (N3 := near_app _ _ _ _ _ _ N1 (near_app _ _ _ _ _ _ (near_one _ _ _ (near_at_node a m Ga Hm)) N2)).
  rewrite V, V', (nearest_nodes_unique N N3), !map_app. f_equal. symmetry.
  exact (P i j (nearest_nodes_shape N1) (nearest_nodes_shape N2)).
Qed.
End Slice.

(** ** Refinement *)
Lemma in_shape_len dims idx : in_shape dims idx -> length idx = length dims.
Proof. intros H. induction H; simpl; auto. Qed.

Lemma linear_refine c c' vals vals' axes axes' dom dom' eval eval' x :
  multilinear c vals axes dom eval -> multilinear c' vals' axes' dom' eval' ->
  Forall2 refines axes axes' ->
  (forall idx, in_shape (map npts axes') idx -> dom (node_pos axes' idx) /\
     eval (node_pos axes' idx) = Ok (entry 0 (map npts axes') vals' idx)) ->
  length x = length axes -> dom x -> dom' x -> eval' x = eval x.
Proof.
  intros M M' Hr Hv L D D'. destruct (multilinear_value M) as (G & _ & E). destruct (multilinear_value M') as (G' & _ & E').
  assert (LL : length axes = length axes') by (clear - Hr; induction Hr; simpl; auto).
  rewrite E, E' by (auto; lia). f_equal. rewrite <- (T_refine axes axes' x _ G G' Hr L).
  apply (tenL_ext _ _ (lin_lfs axes' x ltac:(lia) G')). intros idx Hi.
  destruct (Hv idx Hi) as (Dn & V). rewrite E in V; auto.
  - apply Ok_inj. symmetry. exact V.
  - rewrite LL. apply node_pos_len. rewrite (in_shape_len _ _ Hi). apply map_length.
Qed.

(** ** Cropping *)
Lemma linear_crop c c' vals vals' axes axes' los dom dom' eval eval' x :
  multilinear c vals axes dom eval -> multilinear c' vals' axes' dom' eval' ->
  crop_grid los axes axes' -> crop_data los (map npts axes) (map npts axes') vals vals' ->
  inside_crop 0 los axes axes' x -> dom x -> dom' x -> eval' x = eval x.
Proof.
  intros M M' Cg Cd Ci D D'. destruct (multilinear_value M) as (G & _ & E). destruct (multilinear_value M') as (G' & _ & E').
  assert (La : length axes' = length axes) by apply Cg. assert (Lx : length x = length axes') by apply Ci.
  rewrite E, E' by (auto; lia). f_equal. 
  rewrite <- (T_crop 2 0 lin1 lin_lf lin1_crop axes axes' los x _ G G' Cg Ci).
  apply (tenL_ext _ _ (lin_lfs axes' x Lx G')). intros idx Hi. apply Cd; exact Hi.
Qed.

Lemma cubic_crop c c' lin vals vals' axes axes' los dom dom' eval eval' x :
  multicubic c lin vals axes dom eval -> multicubic c' lin vals' axes' dom' eval' ->
  crop_grid los axes axes' -> crop_data los (map npts axes) (map npts axes') vals vals' ->
  inside_crop 1 los axes axes' x -> dom x -> dom' x -> eval' x = eval x.
Proof.
  intros M M' Cg Cd Ci D D'. destruct (multicubic_value M) as (G & _ & E). destruct (multicubic_value M') as (G' & _ & E').
  assert (La : length axes' = length axes) by apply Cg. assert (Lx : length x = length axes') by apply Ci.
  rewrite E, E' by (auto; lia). f_equal. 
  rewrite <- (T_crop 4 1 (cub1 lin) (cub_lf lin) (cub1_crop lin) axes axes' los x _ G G' Cg Ci).
  apply (tenL_ext _ _ (ops_lfs 4 (cub1 lin) (cub_lf lin) (cub_mass lin) (cub_node lin) axes' x Lx G')). intros idx Hi. apply Cd; exact Hi.
Qed.

Lemma near_crop lo a b x i : good_axis 2 a -> good_axis 2 b -> crop_axis lo a b -> crop_side 0 lo a b x ->
  nearest_node b x i -> nearest_node a x (lo + i).
Proof.
  intros (Ia & Na) (Ib & Nb) (C1 & C2 & C3) (S1 & S2) (Hi & H). split; [lia|]. intros j Hj. rewrite <- C3 by lia.
  destruct (Z_lt_le_dec j lo) as [Hlo|Hlo].
  - destruct S1 as [|S1]; [lia|]. destruct (H 0%Z ltac:(lia)) as (K & _).
    assert (coord a j < coord b 0). { rewrite C3 by lia. apply Ia; lia. }
    rewrite (Rabs_right (x - coord b 0)) in K by lra. rewrite (Rabs_right (x - coord a j)) by lra. split; lra.
  - destruct (Z_lt_le_dec j (lo + npts b)) as [Hhi|Hhi].
    + destruct (H (j - lo)%Z ltac:(lia)) as (K & K'). rewrite (C3 (j - lo)%Z) in K, K' by lia.
      replace (lo + (j - lo))%Z with j in K, K' by ring. split; [exact K|]. intros Q. specialize (K' Q). lia.
    + destruct S2 as [|S2]; [lia|]. replace (npts b - 1 - 0)%Z with (npts b - 1)%Z in S2 by ring.
      destruct (H (npts b - 1)%Z ltac:(lia)) as (K & _).
      assert (coord b (npts b - 1) < coord a j). { rewrite C3 by lia. apply Ia; lia. }
      rewrite (Rabs_left1 (x - coord b (npts b - 1))) in K by lra. rewrite (Rabs_left1 (x - coord a j)) by lra. split; lra.
Qed.

Lemma near_crops axes axes' los x idx : Forall (good_axis 2) axes -> Forall (good_axis 2) axes' ->
  crop_grid los axes axes' -> inside_crop 0 los axes axes' x -> near axes' x idx ->
  near axes x (map (fun p => (fst p + snd p)%Z) (combine los idx)).
Proof.
  revert axes' los x idx. induction axes as [|a axes IH]; intros axes' los x idx G G' (Ll & La & C) (Lx & S) (_ & N).
  - destruct axes'; [|discriminate]. destruct los; [|discriminate]. destruct x; [|discriminate]. split; auto. constructor.
  - destruct axes' as [|b axes']; [discriminate|]. destruct los as [|lo los]; [discriminate|].
    destruct x as [|t x]; [discriminate|].
    inversion G as [|? ? Ga Gr]; subst. inversion G' as [|? ? Gb Gr']; subst.
    simpl in Ll, La, Lx. cbn [combine] in N. inversion N as [|? i ? is Hi Hr]; subst. cbn [fst snd] in Hi.
    split; [simpl; lia|]. cbn [combine map fst snd]. constructor.
    + exact (near_crop lo a b t i Ga Gb (C 0%nat a b eq_refl eq_refl) (S 0%nat a b eq_refl eq_refl) Hi).
    + apply (IH axes' los x is Gr Gr').
      * split; [lia|]. split; [lia|]. intros k. exact (C (Datatypes.S k)).
      * split; [lia|]. intros k. exact (S (Datatypes.S k)).
      * split; [lia|exact Hr].
Qed.

Lemma nearest_crop c c' vals vals' axes axes' los dom dom' eval eval' x :
  nearest_nd c vals axes dom eval -> nearest_nd c' vals' axes' dom' eval' ->
  crop_grid los axes axes' -> crop_data los (map npts axes) (map npts axes') vals vals' ->
  inside_crop 0 los axes axes' x -> dom x -> dom' x -> eval' x = eval x.
Proof.
  intros M M' Cg Cd Ci D D'. destruct (nearest_value M) as (G & _ & E). destruct (nearest_value M') as (G' & _ & E').
  assert (La : length axes' = length axes) by apply Cg. assert (Lx : length x = length axes') by apply Ci.
  destruct (E x ltac:(lia) D) as (k & N & V). destruct (E' x Lx D') as (k' & N' & V').
  rewrite V, V'. f_equal. rewrite (Cd k' (nearest_nodes_shape N')). f_equal.
  apply (@nearest_nodes_unique axes x).
  - apply near_nodes. apply (near_crops axes axes' los x k' G G' Cg Ci). apply near_nodes. exact N'.
  - exact N.
Qed.
