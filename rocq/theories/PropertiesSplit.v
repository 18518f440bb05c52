(** Theorems, in exact arithmetic, about data that is a product or a sum, about slices and
    nesting, and about refined and cropped grids. *)
From Coq Require Import Reals Lra PeanoNat Bool.
From Verif Require Import Base Ops RInst ModelLinear ModelNearest ModelCubic Spec SpecReal Interpolators.
From Verif Require Import RTensor R1D RChar REval RProofs ExampleReal PropertiesExact PropertiesApprox SpecSplit Split SplitProofs.
Unset Implicit Arguments.
Open Scope list_scope.
Open Scope R_scope.

(** * C64: products and sums *)

(** If the values on the grid a1 x a2 are the products of values u on a1 and v on a2, the result at
    (x1, x2) is the product of the results of the two smaller interpolators; likewise for sums. *)
Theorem C64_multilinear_product :
  forall c c1 c2 u v w a1 a2 x1 x2 (dom dom1 dom2 : list R -> Prop) eval eval1 eval2,
  length x1 = length a1 -> length x2 = length a2 -> dom (x1 ++ x2) -> dom1 x1 -> dom2 x2 ->
  multilinear c w (a1 ++ a2) dom eval -> multilinear c1 u a1 dom1 eval1 -> multilinear c2 v a2 dom2 eval2 ->
  product_data (map npts a1) (map npts a2) u v w ->
  exists r1 r2, eval1 x1 = Ok r1 /\ eval2 x2 = Ok r2 /\ eval (x1 ++ x2) = Ok (r1 * r2).
Proof. exact linear_product. Qed.
Theorem C64_multilinear_sum :
  forall c c1 c2 u v w a1 a2 x1 x2 (dom dom1 dom2 : list R -> Prop) eval eval1 eval2,
  length x1 = length a1 -> length x2 = length a2 -> dom (x1 ++ x2) -> dom1 x1 -> dom2 x2 ->
  multilinear c w (a1 ++ a2) dom eval -> multilinear c1 u a1 dom1 eval1 -> multilinear c2 v a2 dom2 eval2 ->
  sum_data (map npts a1) (map npts a2) u v w ->
  exists r1 r2, eval1 x1 = Ok r1 /\ eval2 x2 = Ok r2 /\ eval (x1 ++ x2) = Ok (r1 + r2).
Proof. exact linear_sum. Qed.
Theorem C64_multicubic_product :
  forall c c1 c2 u v w a1 a2 x1 x2 (dom dom1 dom2 : list R -> Prop) eval eval1 eval2,
  length x1 = length a1 -> length x2 = length a2 -> dom (x1 ++ x2) -> dom1 x1 -> dom2 x2 ->
  forall lin,
  multicubic c lin w (a1 ++ a2) dom eval -> multicubic c1 lin u a1 dom1 eval1 -> multicubic c2 lin v a2 dom2 eval2 ->
  product_data (map npts a1) (map npts a2) u v w ->
  exists r1 r2, eval1 x1 = Ok r1 /\ eval2 x2 = Ok r2 /\ eval (x1 ++ x2) = Ok (r1 * r2).
Proof. exact cubic_product. Qed.
Theorem C64_multicubic_sum :
  forall c c1 c2 u v w a1 a2 x1 x2 (dom dom1 dom2 : list R -> Prop) eval eval1 eval2,
  length x1 = length a1 -> length x2 = length a2 -> dom (x1 ++ x2) -> dom1 x1 -> dom2 x2 ->
  forall lin,
  multicubic c lin w (a1 ++ a2) dom eval -> multicubic c1 lin u a1 dom1 eval1 -> multicubic c2 lin v a2 dom2 eval2 ->
  sum_data (map npts a1) (map npts a2) u v w ->
  exists r1 r2, eval1 x1 = Ok r1 /\ eval2 x2 = Ok r2 /\ eval (x1 ++ x2) = Ok (r1 + r2).
Proof. exact cubic_sum. Qed.
Theorem C64_nearest_product :
  forall c c1 c2 u v w a1 a2 x1 x2 (dom dom1 dom2 : list R -> Prop) eval eval1 eval2,
  length x1 = length a1 -> length x2 = length a2 -> dom (x1 ++ x2) -> dom1 x1 -> dom2 x2 ->
  nearest_nd c w (a1 ++ a2) dom eval -> nearest_nd c1 u a1 dom1 eval1 -> nearest_nd c2 v a2 dom2 eval2 ->
  product_data (map npts a1) (map npts a2) u v w ->
  exists r1 r2, eval1 x1 = Ok r1 /\ eval2 x2 = Ok r2 /\ eval (x1 ++ x2) = Ok (r1 * r2).
Proof. exact nearest_product. Qed.
Theorem C64_nearest_sum :
  forall c c1 c2 u v w a1 a2 x1 x2 (dom dom1 dom2 : list R -> Prop) eval eval1 eval2,
  length x1 = length a1 -> length x2 = length a2 -> dom (x1 ++ x2) -> dom1 x1 -> dom2 x2 ->
  nearest_nd c w (a1 ++ a2) dom eval -> nearest_nd c1 u a1 dom1 eval1 -> nearest_nd c2 v a2 dom2 eval2 ->
  sum_data (map npts a1) (map npts a2) u v w ->
  exists r1 r2, eval1 x1 = Ok r1 /\ eval2 x2 = Ok r2 /\ eval (x1 ++ x2) = Ok (r1 + r2).
Proof. exact nearest_sum. Qed.

(** Concrete interpolators on a 4 x 4 grid and its two axes. *)
Definition gx : list R := [0; 1; 3; 4].
Definition gy : list R := [0; 2; 3; 5].
Definition su : list R := [1; 2; 0; 3].
Definition sv : list R := [2; -1; 4; 5].
Definition prod_uv : list R := [2; -1; 4; 5; 4; -2; 8; 10; 0; 0; 0; 0; 6; -3; 12; 15].
Definition sum_uv : list R := [3; 0; 5; 6; 4; 1; 6; 7; 2; -1; 4; 5; 5; 2; 7; 8].
Definition ln grids vals := mlc_interp_one ROps rplain (mkRect grids (map zlen grids) vals).
Definition cu lin grids vals := mcc_interp_one ROps rplain (mkCC (mkRect grids (map zlen grids) vals) lin).
Definition ne grids vals := nc_interp_one ROps rplain (mkRect grids (map zlen grids) vals).
Ltac new_rect := lazy -[Rltb IZR Rplus Rmult Rinv Ropp]; rltb; reflexivity.
Ltac ln_ok := apply multilinear_rectilinear; [rrect_ok|sorted_ok|new_rect].
Ltac cu_ok := apply multicubic_rectilinear; [rrect_ok|sorted_ok|new_rect].
Ltac ne_ok := apply nearest_rectilinear; [rrect_ok|sorted_ok|new_rect].
Ltac axis4 Hi i := let B := fresh in let T := fresh in let E := fresh in
  inversion Hi as [|? i ? ? B T]; subst; inversion T; subst; unfold zlen in B; simpl in B;
  assert (E : (i = 0 \/ i = 1 \/ i = 2 \/ i = 3)%Z) by lia; destruct E as [-> | [-> | [-> | ->]]].

Lemma prod_uv_ok : product_data (map npts (rect_axes [gx])) (map npts (rect_axes [gy])) su sv prod_uv.
Proof. intros i j Hi Hj. axis4 Hi p; axis4 Hj q; unfold entry; simpl; lra. Qed.
Lemma sum_uv_ok : sum_data (map npts (rect_axes [gx])) (map npts (rect_axes [gy])) su sv sum_uv.
Proof. intros i j Hi Hj. axis4 Hi p; axis4 Hj q; unfold entry; simpl; lra. Qed.
Lemma ln_u : multilinear rplain su (rect_axes [gx]) everywhere (ln [gx] su). Proof. ln_ok. Qed.
Lemma ln_v : multilinear rplain sv (rect_axes [gy]) everywhere (ln [gy] sv). Proof. ln_ok. Qed.
Lemma ln_prod : multilinear rplain prod_uv (rect_axes [gx] ++ rect_axes [gy]) everywhere (ln [gx; gy] prod_uv).
Proof. change (rect_axes [gx] ++ rect_axes [gy]) with (rect_axes [gx; gy]). ln_ok. Qed.
Lemma ln_sum : multilinear rplain sum_uv (rect_axes [gx] ++ rect_axes [gy]) everywhere (ln [gx; gy] sum_uv).
Proof. change (rect_axes [gx] ++ rect_axes [gy]) with (rect_axes [gx; gy]). ln_ok. Qed.
Lemma cu_u lin : multicubic rplain lin su (rect_axes [gx]) everywhere (cu lin [gx] su). Proof. cu_ok. Qed.
Lemma cu_v lin : multicubic rplain lin sv (rect_axes [gy]) everywhere (cu lin [gy] sv). Proof. cu_ok. Qed.
Lemma cu_prod lin : multicubic rplain lin prod_uv (rect_axes [gx] ++ rect_axes [gy]) everywhere (cu lin [gx; gy] prod_uv).
Proof. change (rect_axes [gx] ++ rect_axes [gy]) with (rect_axes [gx; gy]). cu_ok. Qed.
Lemma cu_sum lin : multicubic rplain lin sum_uv (rect_axes [gx] ++ rect_axes [gy]) everywhere (cu lin [gx; gy] sum_uv).
Proof. change (rect_axes [gx] ++ rect_axes [gy]) with (rect_axes [gx; gy]). cu_ok. Qed.
Lemma ne_u : nearest_nd rplain su (rect_axes [gx]) everywhere (ne [gx] su). Proof. ne_ok. Qed.
Lemma ne_v : nearest_nd rplain sv (rect_axes [gy]) everywhere (ne [gy] sv). Proof. ne_ok. Qed.
Lemma ne_prod : nearest_nd rplain prod_uv (rect_axes [gx] ++ rect_axes [gy]) everywhere (ne [gx; gy] prod_uv).
Proof. change (rect_axes [gx] ++ rect_axes [gy]) with (rect_axes [gx; gy]). ne_ok. Qed.
Lemma ne_sum : nearest_nd rplain sum_uv (rect_axes [gx] ++ rect_axes [gy]) everywhere (ne [gx; gy] sum_uv).
Proof. change (rect_axes [gx] ++ rect_axes [gy]) with (rect_axes [gx; gy]). ne_ok. Qed.

(** The point (2, 7), outside the grid along the second axis. *)
Example C64_multilinear_ex :
  (exists r1 r2, ln [gx] su [2] = Ok r1 /\ ln [gy] sv [7] = Ok r2 /\ ln [gx; gy] prod_uv [2; 7] = Ok (r1 * r2))
  /\ (exists r1 r2, ln [gx] su [2] = Ok r1 /\ ln [gy] sv [7] = Ok r2 /\ ln [gx; gy] sum_uv [2; 7] = Ok (r1 + r2))
  /\ ln [gx] su [2] = Ok 1 /\ ln [gy] sv [7] = Ok 6.
Proof.
  split; [|split; [|split]].
  - exact (C64_multilinear_product _ _ _ _ _ _ (rect_axes [gx]) (rect_axes [gy]) [2] [7] _ _ _ _ _ _ eq_refl eq_refl I I I ln_prod ln_u ln_v prod_uv_ok).
  - exact (C64_multilinear_sum _ _ _ _ _ _ (rect_axes [gx]) (rect_axes [gy]) [2] [7] _ _ _ _ _ _ eq_refl eq_refl I I I ln_sum ln_u ln_v sum_uv_ok).
  - rewrite (C01_multilinear _ _ _ _ _ [2] [1%Z] ln_u); [| |exact I].
    + f_equal. unfold corner_sum, entry. simpl. unfold local_coord. simpl. lra.
    + split; auto. split; auto. intros [|[|k]] a Ha; try discriminate. injection Ha as <-.
      split; [unfold zlen; simpl; lia|]. split; right; simpl; lra.
  - rewrite (C01_multilinear _ _ _ _ _ [7] [2%Z] ln_v); [| |exact I].
    + f_equal. unfold corner_sum, entry. simpl. unfold local_coord. simpl. lra.
    + split; auto. split; auto. intros [|[|k]] a Ha; try discriminate. injection Ha as <-.
      split; [unfold zlen; simpl; lia|]. split; [right; simpl; lra|left; reflexivity].
Qed.
Example C64_multicubic_ex :
  (exists r1 r2, cu true [gx] su [2] = Ok r1 /\ cu true [gy] sv [7] = Ok r2 /\ cu true [gx; gy] prod_uv [2; 7] = Ok (r1 * r2))
  /\ (exists r1 r2, cu false [gx] su [2] = Ok r1 /\ cu false [gy] sv [7] = Ok r2 /\ cu false [gx; gy] sum_uv [2; 7] = Ok (r1 + r2)).
Proof.
  split.
  - exact (C64_multicubic_product _ _ _ _ _ _ (rect_axes [gx]) (rect_axes [gy]) [2] [7] _ _ _ _ _ _ eq_refl eq_refl I I I true (cu_prod true) (cu_u true) (cu_v true) prod_uv_ok).
  - exact (C64_multicubic_sum _ _ _ _ _ _ (rect_axes [gx]) (rect_axes [gy]) [2] [7] _ _ _ _ _ _ eq_refl eq_refl I I I false (cu_sum false) (cu_u false) (cu_v false) sum_uv_ok).
Qed.
Example C64_nearest_ex :
  (exists r1 r2, ne [gx] su [2] = Ok r1 /\ ne [gy] sv [7] = Ok r2 /\ ne [gx; gy] prod_uv [2; 7] = Ok (r1 * r2))
  /\ (exists r1 r2, ne [gx] su [2] = Ok r1 /\ ne [gy] sv [7] = Ok r2 /\ ne [gx; gy] sum_uv [2; 7] = Ok (r1 + r2)).
Proof.
  split.
  - exact (C64_nearest_product _ _ _ _ _ _ (rect_axes [gx]) (rect_axes [gy]) [2] [7] _ _ _ _ _ _ eq_refl eq_refl I I I ne_prod ne_u ne_v prod_uv_ok).
  - exact (C64_nearest_sum _ _ _ _ _ _ (rect_axes [gx]) (rect_axes [gy]) [2] [7] _ _ _ _ _ _ eq_refl eq_refl I I I ne_sum ne_u ne_v sum_uv_ok).
Qed.
Print Assumptions C64_multilinear_product.
Print Assumptions C64_multilinear_sum.
Print Assumptions C64_multicubic_product.
Print Assumptions C64_multicubic_sum.
Print Assumptions C64_nearest_product.
Print Assumptions C64_nearest_sum.

(** * C65: slices and nesting *)

(** With one coordinate at a grid node, the result is that of the interpolator of the slice of the
    data at that node, whatever the other coordinates are. *)
Theorem C65_multilinear_slice :
  forall c c' w s a1 a2 a x1 x2 m (dom dom' : list R -> Prop) eval eval',
  length x1 = length a1 -> length x2 = length a2 -> dom (x1 ++ coord a m :: x2) -> dom' (x1 ++ x2) ->
  (0 <= m < npts a)%Z -> slice_data (map npts a1) (npts a) (map npts a2) m w s ->
  multilinear c w (a1 ++ a :: a2) dom eval -> multilinear c' s (a1 ++ a2) dom' eval' ->
  eval (x1 ++ coord a m :: x2) = eval' (x1 ++ x2).
Proof. exact linear_slice. Qed.
Theorem C65_multicubic_slice :
  forall c c' w s a1 a2 a x1 x2 m (dom dom' : list R -> Prop) eval eval',
  length x1 = length a1 -> length x2 = length a2 -> dom (x1 ++ coord a m :: x2) -> dom' (x1 ++ x2) ->
  (0 <= m < npts a)%Z -> slice_data (map npts a1) (npts a) (map npts a2) m w s ->
  forall lin, multicubic c lin w (a1 ++ a :: a2) dom eval -> multicubic c' lin s (a1 ++ a2) dom' eval' ->
  eval (x1 ++ coord a m :: x2) = eval' (x1 ++ x2).
Proof. exact cubic_slice. Qed.
Theorem C65_nearest_slice :
  forall c c' w s a1 a2 a x1 x2 m (dom dom' : list R -> Prop) eval eval',
  length x1 = length a1 -> length x2 = length a2 -> dom (x1 ++ coord a m :: x2) -> dom' (x1 ++ x2) ->
  (0 <= m < npts a)%Z -> slice_data (map npts a1) (npts a) (map npts a2) m w s ->
  nearest_nd c w (a1 ++ a :: a2) dom eval -> nearest_nd c' s (a1 ++ a2) dom' eval' ->
  eval (x1 ++ coord a m :: x2) = eval' (x1 ++ x2).
Proof. exact nearest_slice. Qed.
(** Interpolating first along the axes a1, once for every node of the other axes, and then along the
    axes a2 gives the same result as interpolating along all axes together. *)
Theorem C65_multilinear_nested :
  forall c c2 w a1 a2 x1 x2 (dom dom2 : list R -> Prop) eval eval2,
  length x1 = length a1 -> length x2 = length a2 -> dom (x1 ++ x2) -> dom2 x2 -> forall w2,
  multilinear c w (a1 ++ a2) dom eval -> multilinear c2 w2 a2 dom2 eval2 ->
  (forall j, in_shape (map npts a2) j -> exists c' u' dom' eval',
     multilinear c' u' a1 dom' eval' /\ dom' x1 /\ block_data (map npts a1) (map npts a2) j w u' /\
     eval' x1 = Ok (entry 0 (map npts a2) w2 j)) ->
  eval (x1 ++ x2) = eval2 x2.
Proof. exact linear_nested. Qed.
Theorem C65_multicubic_nested :
  forall c c2 w a1 a2 x1 x2 (dom dom2 : list R -> Prop) eval eval2,
  length x1 = length a1 -> length x2 = length a2 -> dom (x1 ++ x2) -> dom2 x2 -> forall lin w2,
  multicubic c lin w (a1 ++ a2) dom eval -> multicubic c2 lin w2 a2 dom2 eval2 ->
  (forall j, in_shape (map npts a2) j -> exists c' u' dom' eval',
     multicubic c' lin u' a1 dom' eval' /\ dom' x1 /\ block_data (map npts a1) (map npts a2) j w u' /\
     eval' x1 = Ok (entry 0 (map npts a2) w2 j)) ->
  eval (x1 ++ x2) = eval2 x2.
Proof. exact cubic_nested. Qed.
Theorem C65_nearest_nested :
  forall c c2 w a1 a2 x1 x2 (dom dom2 : list R -> Prop) eval eval2,
  length x1 = length a1 -> length x2 = length a2 -> dom (x1 ++ x2) -> dom2 x2 -> forall w2,
  nearest_nd c w (a1 ++ a2) dom eval -> nearest_nd c2 w2 a2 dom2 eval2 ->
  (forall j, in_shape (map npts a2) j -> exists c' u' dom' eval',
     nearest_nd c' u' a1 dom' eval' /\ dom' x1 /\ block_data (map npts a1) (map npts a2) j w u' /\
     eval' x1 = Ok (entry 0 (map npts a2) w2 j)) ->
  eval (x1 ++ x2) = eval2 x2.
Proof. exact nearest_nested. Qed.

(** The second coordinate is node 2, at 3: the slice is column 2. *)
Definition col2 : list R := [5; 6; 4; 7].
Lemma col2_ok : slice_data (map npts (rect_axes [gx])) (npts (list_axis gy)) (map npts []) 2 sum_uv col2.
Proof. intros i j Hi Hj. inversion Hj; subst. axis4 Hi p; unfold entry; simpl; lra. Qed.
Lemma ln_col2 : multilinear rplain col2 (rect_axes [gx] ++ []) everywhere (ln [gx] col2). Proof. rewrite app_nil_r. ln_ok. Qed.
Lemma cu_col2 lin : multicubic rplain lin col2 (rect_axes [gx] ++ []) everywhere (cu lin [gx] col2). Proof. rewrite app_nil_r. cu_ok. Qed.
Lemma ne_col2 : nearest_nd rplain col2 (rect_axes [gx] ++ []) everywhere (ne [gx] col2). Proof. rewrite app_nil_r. ne_ok. Qed.
Example C65_slice_ex :
  ln [gx; gy] sum_uv [9; 3] = ln [gx] col2 [9] /\ cu true [gx; gy] sum_uv [5 / 2; 3] = cu true [gx] col2 [5 / 2]
  /\ ne [gx; gy] sum_uv [9; 3] = ne [gx] col2 [9].
Proof.
  assert (B : (0 <= 2 < npts (list_axis gy))%Z) by (split; [lia|reflexivity]).
  split; [|split].
  - exact (C65_multilinear_slice _ _ _ _ (rect_axes [gx]) [] (list_axis gy) [9] [] 2 _ _ _ _ eq_refl eq_refl I I B col2_ok ln_sum ln_col2).
  - exact (C65_multicubic_slice _ _ _ _ (rect_axes [gx]) [] (list_axis gy) [5 / 2] [] 2 _ _ _ _ eq_refl eq_refl I I B col2_ok true (cu_sum true) (cu_col2 true)).
  - exact (C65_nearest_slice _ _ _ _ (rect_axes [gx]) [] (list_axis gy) [9] [] 2 _ _ _ _ eq_refl eq_refl I I B col2_ok ne_sum ne_col2).
Qed.

(** The columns of the array, and what the interpolators along the first axis give for them at 2. *)
Definition column (q : Z) : list R := map (fun r => nth (Z.to_nat q) sv 0 + r) su.
Definition row_at_2 : list R := [3; 0; 5; 6].
Lemma column_ok q : (0 <= q < 4)%Z -> block_data (map npts (rect_axes [gx])) (map npts (rect_axes [gy])) [q] sum_uv (column q).
Proof.
  intros Hq i Hi. assert (E : (q = 0 \/ q = 1 \/ q = 2 \/ q = 3)%Z) by lia.
  destruct E as [-> | [-> | [-> | ->]]]; axis4 Hi p; unfold entry, column; simpl; lra.
Qed.
Lemma ln_column q : multilinear rplain (column q) (rect_axes [gx]) everywhere (ln [gx] (column q)). Proof. ln_ok. Qed.
Lemma cu_column lin q : multicubic rplain lin (column q) (rect_axes [gx]) everywhere (cu lin [gx] (column q)). Proof. cu_ok. Qed.
Lemma ne_column q : nearest_nd rplain (column q) (rect_axes [gx]) everywhere (ne [gx] (column q)). Proof. ne_ok. Qed.
Lemma ln_row : multilinear rplain row_at_2 (rect_axes [gy]) everywhere (ln [gy] row_at_2). Proof. ln_ok. Qed.
Example C65_multilinear_nested_ex : ln [gx; gy] sum_uv [2; 7] = ln [gy] row_at_2 [7].
Proof.
  apply (C65_multilinear_nested _ _ _ (rect_axes [gx]) (rect_axes [gy]) [2] [7] _ _ _ _ eq_refl eq_refl I I row_at_2 ln_sum ln_row).
  intros j Hj. assert (Q : exists q, j = [q] /\ (0 <= q < 4)%Z).
  { inversion Hj as [|? q ? r Hq Hr]; subst. inversion Hr; subst. exists q. split; auto. }
  destruct Q as (q & -> & Hq). exists rplain, (column q), everywhere, (ln [gx] (column q)).
  split; [apply ln_column|]. split; [exact I|]. split; [apply column_ok; exact Hq|].
  rewrite (C01_multilinear _ _ _ _ _ [2] [1%Z] (ln_column q)); [| |exact I].
  - f_equal. unfold corner_sum. assert (E : (q = 0 \/ q = 1 \/ q = 2 \/ q = 3)%Z) by lia.
    destruct E as [-> | [-> | [-> | ->]]]; unfold entry, column; simpl; unfold local_coord; simpl; lra.
  - split; auto. split; auto. intros [|[|k]] a Ha; try discriminate. injection Ha as <-.
    split; [unfold zlen; simpl; lia|]. split; right; simpl; lra.
Qed.

(** Nodes 1 and 2 of the first axis are equally near to 2; the lower one counts. *)
Definition near_row : list R := [4; 1; 6; 7].
Lemma ne_row : nearest_nd rplain near_row (rect_axes [gy]) everywhere (ne [gy] near_row). Proof. ne_ok. Qed.
Example C65_nearest_nested_ex : ne [gx; gy] sum_uv [2; 7] = ne [gy] near_row [7].
Proof.
  apply (C65_nearest_nested _ _ _ (rect_axes [gx]) (rect_axes [gy]) [2] [7] _ _ _ _ eq_refl eq_refl I I near_row ne_sum ne_row).
  intros j Hj. assert (Q : exists q, j = [q] /\ (0 <= q < 4)%Z).
  { inversion Hj as [|? q ? r Hq Hr]; subst. inversion Hr; subst. exists q. split; auto. }
  destruct Q as (q & -> & Hq). exists rplain, (column q), everywhere, (ne [gx] (column q)).
  split; [apply ne_column|]. split; [exact I|]. split; [apply column_ok; exact Hq|].
  destruct (C24_nearest _ _ _ _ _ [2] (ne_column q) eq_refl I) as (_ & H).
  rewrite (proj2 (H [1%Z] ltac:(
    split; auto; split; auto; intros [|[|k]] a Ha; try discriminate; injection Ha as <-;
    split; [split; [vm_compute; discriminate|reflexivity]|]; intros m Hm; change (0 <= m < 4)%Z in Hm;
    assert (Em : (m = 0 \/ m = 1 \/ m = 2 \/ m = 3)%Z) by lia;
    destruct Em as [-> | [-> | [-> | ->]]]; simpl; unfold Rabs; repeat destruct (Rcase_abs _); split; try lra; try lia))).
  f_equal. assert (E : (q = 0 \/ q = 1 \/ q = 2 \/ q = 3)%Z) by lia.
  destruct E as [-> | [-> | [-> | ->]]]; unfold entry, column; simpl; lra.
Qed.

(** For the multicubic interpolators: values s^2 + t at (s, t). *)
Definition sq_vals : list R := [0; 2; 3; 5; 1; 3; 4; 6; 9; 11; 12; 14; 16; 18; 19; 21].
Definition sq_column (q : Z) : list R := map (fun s => s * s + nth (Z.to_nat q) gy 0) gx.
Definition sq_row : list R := [4; 6; 7; 9].
Lemma cu_sq lin : multicubic rplain lin sq_vals (rect_axes [gx] ++ rect_axes [gy]) everywhere (cu lin [gx; gy] sq_vals).
Proof. change (rect_axes [gx] ++ rect_axes [gy]) with (rect_axes [gx; gy]). cu_ok. Qed.
Lemma cu_sq_column lin q : multicubic rplain lin (sq_column q) (rect_axes [gx]) everywhere (cu lin [gx] (sq_column q)). Proof. cu_ok. Qed.
Lemma cu_sq_row lin : multicubic rplain lin sq_row (rect_axes [gy]) everywhere (cu lin [gy] sq_row). Proof. cu_ok. Qed.
Example C65_multicubic_nested_ex : cu true [gx; gy] sq_vals [2; 7] = cu true [gy] sq_row [7].
Proof.
  apply (C65_multicubic_nested _ _ _ (rect_axes [gx]) (rect_axes [gy]) [2] [7] _ _ _ _ eq_refl eq_refl I I true sq_row (cu_sq true) (cu_sq_row true)).
  intros j Hj. assert (Q : exists q, j = [q] /\ (0 <= q < 4)%Z).
  { inversion Hj as [|? q ? r Hq Hr]; subst. inversion Hr; subst. exists q. split; auto. }
  destruct Q as (q & -> & Hq). assert (E : (q = 0 \/ q = 1 \/ q = 2 \/ q = 3)%Z) by lia.
  exists rplain, (sq_column q), everywhere, (cu true [gx] (sq_column q)).
  split; [apply cu_sq_column|]. split; [exact I|]. split.
  - intros i Hi. destruct E as [-> | [-> | [-> | ->]]]; axis4 Hi p; unfold entry, sq_column; simpl; lra.
  - rewrite (C06_quadratic _ _ _ _ _ _ (fun x => nth 0 x 0 * nth 0 x 0 + nth (Z.to_nat q) gy 0) [2] (cu_sq_column true q)).
    + f_equal. destruct E as [-> | [-> | [-> | ->]]]; unfold entry; simpl; lra.
    + intros [|k] [|y [|]] Hk Hy; simpl in *; try lia. exists (nth (Z.to_nat q) gy 0), 0, 1. intros t. simpl. ring.
    + intros i Hi. axis4 Hi p; unfold entry, sq_column; simpl; lra.
    + reflexivity.
    + exact I.
    + left. split; auto. intros [|[|k]] a Ha; try discriminate. injection Ha as <-. change (0 <= 2 <= 4). lra.
Qed.
Print Assumptions C65_multilinear_slice.
Print Assumptions C65_multicubic_slice.
Print Assumptions C65_nearest_slice.
Print Assumptions C65_multilinear_nested.
Print Assumptions C65_multicubic_nested.
Print Assumptions C65_nearest_nested.

(** * C66: refining the grid *)

(** Fill a finer grid with the results of a multilinear interpolator at its nodes: the multilinear
    interpolator on the finer grid is the same function, inside and outside the grid. *)
Theorem C66_multilinear :
  forall c c' vals vals' axes axes' dom dom' eval eval' x,
  multilinear c vals axes dom eval -> multilinear c' vals' axes' dom' eval' ->
  Forall2 refines axes axes' ->
  (forall idx, in_shape (map npts axes') idx -> dom (node_pos axes' idx) /\
     eval (node_pos axes' idx) = Ok (entry 0 (map npts axes') vals' idx)) ->
  length x = length axes -> dom x -> dom' x -> eval' x = eval x.
Proof. exact linear_refine. Qed.

Definition coarse_g : list (list R) := [[0; 2; 3]; [0; 1]].
Definition fine_g : list (list R) := [[0; 1; 2; 3]; [0; 1]].
Definition coarse_vals : list R := [1; 2; 4; 8; 16; 32].
Definition fine_vals : list R := [1; 2; 5 / 2; 5; 4; 8; 16; 32].
Lemma coarse_ok : multilinear rplain coarse_vals (rect_axes coarse_g) everywhere (ln coarse_g coarse_vals). Proof. ln_ok. Qed.
Lemma fine_ok : multilinear rplain fine_vals (rect_axes fine_g) everywhere (ln fine_g fine_vals). Proof. ln_ok. Qed.
Lemma fine_refines : Forall2 refines (rect_axes coarse_g) (rect_axes fine_g).
Proof.
  apply Forall2_cons; [|apply Forall2_cons; [|apply Forall2_nil]]; intros i Hi; unfold zlen in Hi; simpl in Hi.
  - assert (i = 1%Z) by lia. subst i. exists 2%Z. unfold zlen. simpl. split; [lia|reflexivity].
  - lia.
Qed.
Lemma coarse_at p q o : (0 <= p <= 3)%Z -> (0 <= q <= 1)%Z -> (o = if (p <=? 2)%Z then 0 else 1)%Z ->
  in_cells (rect_axes coarse_g) (node_pos (rect_axes fine_g) [p; q]) [o; 0%Z].
Proof.
  intros Hp Hq ->. assert (E : (p = 0 \/ p = 1 \/ p = 2 \/ p = 3)%Z) by lia. assert (E' : (q = 0 \/ q = 1)%Z) by lia.
  split; auto. split; auto.
  intros [|[|[|k]]] a Ha; try discriminate; injection Ha as <-;
    destruct E as [-> | [-> | [-> | ->]]], E' as [-> | ->]; (split; [unfold zlen; simpl; lia|]);
    unfold zlen; simpl; split; first [left; reflexivity|right; lra].
Qed.
Example C66_ex : ln fine_g fine_vals [3 / 2; 5] = ln coarse_g coarse_vals [3 / 2; 5].
Proof.
  apply (C66_multilinear _ _ _ _ _ _ _ _ _ _ _ coarse_ok fine_ok fine_refines); try reflexivity; try exact I.
  intros idx Hi. split; [exact I|]. inversion Hi as [|? p ? r Hp Hr]; subst. inversion Hr as [|? q ? r' Hq Hr']; subst.
  inversion Hr'; subst. unfold zlen in Hp, Hq. simpl in Hp, Hq.
  rewrite (C01_multilinear _ _ _ _ _ _ _ coarse_ok (coarse_at p q _ ltac:(lia) ltac:(lia) eq_refl) I). f_equal.
  assert (E : (p = 0 \/ p = 1 \/ p = 2 \/ p = 3)%Z) by lia. assert (E' : (q = 0 \/ q = 1)%Z) by lia.
  destruct E as [-> | [-> | [-> | ->]]], E' as [-> | ->]; unfold corner_sum, entry; simpl; unfold local_coord; simpl; lra.
Qed.
Print Assumptions C66_multilinear.

(** * C67: cropping the grid *)

(** An interpolator on a part of the grid gives the results of the interpolator on all of it, at
    every point inside that part. Multicubic: at every point at least one cell away from the planes
    where the grid was cut. *)
Theorem C67_multilinear :
  forall c c' vals vals' axes axes' los dom dom' eval eval' x,
  multilinear c vals axes dom eval -> multilinear c' vals' axes' dom' eval' ->
  crop_grid los axes axes' -> crop_data los (map npts axes) (map npts axes') vals vals' ->
  inside_crop 0 los axes axes' x -> dom x -> dom' x -> eval' x = eval x.
Proof. exact linear_crop. Qed.
Theorem C67_multicubic :
  forall c c' lin vals vals' axes axes' los dom dom' eval eval' x,
  multicubic c lin vals axes dom eval -> multicubic c' lin vals' axes' dom' eval' ->
  crop_grid los axes axes' -> crop_data los (map npts axes) (map npts axes') vals vals' ->
  inside_crop 1 los axes axes' x -> dom x -> dom' x -> eval' x = eval x.
Proof. exact cubic_crop. Qed.
Theorem C67_nearest :
  forall c c' vals vals' axes axes' los dom dom' eval eval' x,
  nearest_nd c vals axes dom eval -> nearest_nd c' vals' axes' dom' eval' ->
  crop_grid los axes axes' -> crop_data los (map npts axes) (map npts axes') vals vals' ->
  inside_crop 0 los axes axes' x -> dom x -> dom' x -> eval' x = eval x.
Proof. exact nearest_crop. Qed.

(** A 6 x 4 grid and its rows 1 to 4. *)
Definition big_g : list (list R) := [[0; 1; 3; 4; 6; 7]; gy].
Definition part_g : list (list R) := [[1; 3; 4; 6]; gy].
Definition big_vals : list R := map (fun n => IZR (Z.of_nat (n * n mod 11))) (seq 0 24).
Definition part_vals : list R := firstn 16 (skipn 4 big_vals).
Lemma part_grid : crop_grid [1%Z; 0%Z] (rect_axes big_g) (rect_axes part_g).
Proof.
  split; auto. split; auto. intros [|[|[|k]]] a b Ha Hb; try discriminate; injection Ha as <-; injection Hb as <-;
    (split; [vm_compute; discriminate|split; [vm_compute; discriminate|]]); intros j Hj; change (0 <= j < 4)%Z in Hj;
    assert (E : (j = 0 \/ j = 1 \/ j = 2 \/ j = 3)%Z) by lia; destruct E as [-> | [-> | [-> | ->]]]; reflexivity.
Qed.
Lemma part_data : crop_data [1%Z; 0%Z] (map npts (rect_axes big_g)) (map npts (rect_axes part_g)) big_vals part_vals.
Proof.
  intros idx Hi. inversion Hi as [|? p ? r Hp Hr]; subst. inversion Hr as [|? q ? r' Hq Hr']; subst.
  inversion Hr'; subst. unfold zlen in Hp, Hq. simpl in Hp, Hq.
  assert (E : (p = 0 \/ p = 1 \/ p = 2 \/ p = 3)%Z) by lia. assert (E' : (q = 0 \/ q = 1 \/ q = 2 \/ q = 3)%Z) by lia.
  destruct E as [-> | [-> | [-> | ->]]], E' as [-> | [-> | [-> | ->]]]; reflexivity.
Qed.
Lemma ln_big : multilinear rplain big_vals (rect_axes big_g) everywhere (ln big_g big_vals). Proof. ln_ok. Qed.
Lemma ln_part : multilinear rplain part_vals (rect_axes part_g) everywhere (ln part_g part_vals). Proof. ln_ok. Qed.
Lemma cu_big lin : multicubic rplain lin big_vals (rect_axes big_g) everywhere (cu lin big_g big_vals). Proof. cu_ok. Qed.
Lemma cu_part lin : multicubic rplain lin part_vals (rect_axes part_g) everywhere (cu lin part_g part_vals). Proof. cu_ok. Qed.
Lemma ne_big : nearest_nd rplain big_vals (rect_axes big_g) everywhere (ne big_g big_vals). Proof. ne_ok. Qed.
Lemma ne_part : nearest_nd rplain part_vals (rect_axes part_g) everywhere (ne part_g part_vals). Proof. ne_ok. Qed.
Lemma part_inside m u : (m = 0%Z /\ 1 <= u <= 6) \/ (m = 1%Z /\ 3 <= u <= 4) ->
  inside_crop m [1%Z; 0%Z] (rect_axes big_g) (rect_axes part_g) [u; 9].
Proof.
  intros H. split; auto. intros [|[|[|k]]] a b Ha Hb; try discriminate; injection Ha as <-; injection Hb as <-.
  - destruct H as [(-> & H)|(-> & H)]; split; right; [change (1 <= u)|change (u <= 6)|change (3 <= u)|change (u <= 4)]; lra.
  - split; left; reflexivity.
Qed.
(** The second coordinate is outside the grid: nothing was cut off there. *)
Example C67_ex :
  ln part_g part_vals [3 / 2; 9] = ln big_g big_vals [3 / 2; 9]
  /\ cu true part_g part_vals [7 / 2; 9] = cu true big_g big_vals [7 / 2; 9]
  /\ cu false part_g part_vals [3; 9] = cu false big_g big_vals [3; 9]
  /\ ne part_g part_vals [3 / 2; 9] = ne big_g big_vals [3 / 2; 9].
Proof.
  split; [|split; [|split]].
  - apply (C67_multilinear _ _ _ _ _ _ _ _ _ _ _ _ ln_big ln_part part_grid part_data); try exact I. apply part_inside. left. split; [reflexivity|lra].
  - apply (C67_multicubic _ _ _ _ _ _ _ _ _ _ _ _ _ (cu_big true) (cu_part true) part_grid part_data); try exact I. apply part_inside. right. split; [reflexivity|lra].
  - apply (C67_multicubic _ _ _ _ _ _ _ _ _ _ _ _ _ (cu_big false) (cu_part false) part_grid part_data); try exact I. apply part_inside. right. split; [reflexivity|lra].
  - apply (C67_nearest _ _ _ _ _ _ _ _ _ _ _ _ ne_big ne_part part_grid part_data); try exact I. apply part_inside. left. split; [reflexivity|lra].
Qed.
Print Assumptions C67_multilinear.
Print Assumptions C67_multicubic.
Print Assumptions C67_nearest.
