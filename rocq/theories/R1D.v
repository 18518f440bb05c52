(** One-dimensional piecewise functions on an axis: the linear and the cubic
    interpolants of a sequence of values, written as polynomials per cell. *)
From Coq Require Import Reals Lra PeanoNat Bool ZifyBool ZifyNat.
From Verif Require Import Base Ops Spec SpecReal RTensor RPoly.
Open Scope R_scope.

(** ** Cells between the knots g (lo+1) .. g hi, numbered lo .. hi *)

Definition knots_inc (g : Z -> R) (lo hi : Z) : Prop :=
  forall i j, (lo < i < j)%Z -> (j <= hi)%Z -> g i < g j.

Definition adm (g : Z -> R) (lo hi : Z) (x : R) (j : Z) : Prop :=
  (lo <= j <= hi)%Z /\ (j = lo \/ g j <= x) /\ (j = hi \/ x <= g (j + 1)%Z).

Fixpoint last_below (g : Z -> R) (lo : Z) (x : R) (n : nat) : Z :=
  match n with
  | O => lo
  | S m => if Rlt_dec (g (lo + Z.of_nat n)%Z) x then (lo + Z.of_nat n)%Z else last_below g lo x m
  end.

Definition cell_of (g : Z -> R) (lo hi : Z) (x : R) : Z := last_below g lo x (Z.to_nat (hi - lo)).

Lemma last_below_spec g lo x n : let j := last_below g lo x n in
  (lo <= j <= lo + Z.of_nat n)%Z /\ (j = lo \/ g j < x) /\
  (forall i, (j < i <= lo + Z.of_nat n)%Z -> x <= g i).
Proof.
  induction n as [|n IH]; cbn [last_below].
  - split; [lia|]. split; [auto|]. intros; lia.
  - destruct Rlt_dec as [H|H].
    + split; [lia|]. split; auto. intros; lia.
    + destruct IH as (H1 & H2 & H3). split; [lia|]. split; auto.
      intros i Hi. destruct (Z.eq_dec i (lo + Z.of_nat (S n))) as [->|]; [lra|]. apply H3. lia.
Qed.

Lemma cell_of_spec g lo hi x : (lo <= hi)%Z -> let j := cell_of g lo hi x in
  (lo <= j <= hi)%Z /\ (j = lo \/ g j < x) /\ (forall i, (j < i <= hi)%Z -> x <= g i).
Proof.
  intros H. unfold cell_of. pose proof (last_below_spec g lo x (Z.to_nat (hi - lo))) as G.
  cbv zeta in *. rewrite Z2Nat.id in G by lia. replace (lo + (hi - lo))%Z with hi in G by lia. exact G.
Qed.

Lemma cell_of_adm g lo hi x : (lo <= hi)%Z -> adm g lo hi x (cell_of g lo hi x).
Proof.
  intros H. destruct (cell_of_spec g x H) as (H1 & H2 & H3). repeat split; try lia.
  - destruct H2; [auto|right; lra].
  - destruct (Z.eq_dec (cell_of g lo hi x) hi); auto. right. apply H3. lia.
Qed.

(** Two cells of the same point are equal or share that point as a knot. *)
Lemma adm_two g lo hi x i j : knots_inc g lo hi -> adm g lo hi x i -> adm g lo hi x j ->
  (i < j)%Z -> j = (i + 1)%Z /\ x = g j.
Proof.
  intros Hg (Hi1 & Hi2 & Hi3) (Hj1 & Hj2 & Hj3) Hij.
  destruct Hj2 as [->|Hj2]; [lia|]. destruct Hi3 as [->|Hi3]; [lia|].
  destruct (Z.eq_dec j (i + 1)) as [->|Hn].
  - split; auto. lra.
  - assert (g (i + 1)%Z < g j) by (apply Hg; lia). lra.
Qed.

(** ** Gluing *)
Section Glue.
Variables (g : Z -> R) (lo hi : Z).
Hypothesis Hlo : (lo <= hi)%Z.
Hypothesis Hg : knots_inc g lo hi.

Definition glued (P : Z -> R -> R) (x : R) : R := P (cell_of g lo hi x) x.

Definition agree (P : Z -> R -> R) : Prop :=
  forall j, (lo < j <= hi)%Z -> P (j - 1)%Z (g j) = P j (g j).

Lemma glued_eq P x j : agree P -> adm g lo hi x j -> glued P x = P j x.
Proof using Hlo Hg.
  intros HP Hj. unfold glued. pose proof (cell_of_adm g x Hlo) as Hc.
  set (i := cell_of g lo hi x) in *.
  destruct (Ztrichotomy i j) as [H|[H|H]].
  - destruct (adm_two Hg Hc Hj H) as (Ej & Ex). subst x.
    rewrite <- HP by (destruct Hc, Hj; lia). f_equal. lia.
  - congruence.
  - apply Z.gt_lt in H. destruct (adm_two Hg Hj Hc H) as (Ej & Ex). rewrite Ex.
    rewrite <- HP by (destruct Hc, Hj; lia). f_equal. lia.
Qed.

(** Around any point a glued function is one piece on the left and one on the right. *)
Lemma glued_local x : exists jl jr d, adm g lo hi x jl /\ adm g lo hi x jr /\ 0 < d /\
  (forall t, x - d < t <= x -> adm g lo hi t jl) /\
  (forall t, x <= t < x + d -> adm g lo hi t jr).
Proof using Hlo Hg.
  destruct (cell_of_spec g x Hlo) as (H1 & H2 & H3).
  pose proof (cell_of_adm g x Hlo) as Hc.
  set (j := cell_of g lo hi x) in *.
  assert (HL : exists d, 0 < d /\ forall t, x - d < t <= x -> adm g lo hi t j).
  { destruct Hc as (_ & _ & Hc).
    destruct H2 as [H2|H2].
    - exists 1. split; [lra|]. intros t Ht. split; [lia|]. split; [auto|].
      destruct Hc; [auto|right; lra].
    - exists (x - g j). split; [lra|]. intros t Ht. split; [lia|]. split; [right; lra|].
      destruct Hc; [auto|right; lra]. }
  destruct HL as (dl & Hdl & HL).
  assert (HR : exists jr d, 0 < d /\ adm g lo hi x jr /\ forall t, x <= t < x + d -> adm g lo hi t jr).
  { destruct (Z.eq_dec j hi) as [Ej|Ej].
    - exists j, 1. split; [lra|]. split; auto. intros t Ht.
      split; [lia|]. split; [|auto]. destruct H2; [auto|right; lra].
    - assert (Hx := H3 (j + 1)%Z ltac:(lia)).
      destruct (Rle_lt_or_eq_dec _ _ Hx) as [Hlt|Heq].
      + exists j, (g (j + 1)%Z - x). split; [lra|]. split; auto. intros t Ht.
        split; [lia|]. split; [destruct H2; [auto|right; lra]|right; lra].
      + destruct (Z.eq_dec (j + 1) hi) as [Eh|Eh].
        * exists (j + 1)%Z, 1. split; [lra|]. split.
          { split; [lia|]. split; [right; lra|auto]. }
          intros t Ht. split; [lia|]. split; [right; lra|auto].
        * assert (Hn : g (j + 1)%Z < g (j + 1 + 1)%Z) by (apply Hg; lia).
          exists (j + 1)%Z, (g (j + 1 + 1)%Z - x). split; [lra|]. split.
          { split; [lia|]. split; [right; lra|right; lra]. }
          intros t Ht. split; [lia|]. split; [right; lra|right; lra]. }
  destruct HR as (jr & dr & Hdr & Hjr & HR).
  exists j, jr, (Rmin dl dr). split; auto. split; auto.
  assert (Rmin dl dr <= dl) by apply Rmin_l. assert (Rmin dl dr <= dr) by apply Rmin_r.
  split; [apply Rmin_glb_lt; auto|]. split; intros t Ht; [apply HL|apply HR]; lra.
Qed.

Lemma glued_continuous P x : agree P -> (forall j, (lo <= j <= hi)%Z -> continuity (P j)) ->
  continuity_pt (glued P) x.
Proof using Hlo Hg.
  intros HP HC. destruct (glued_local x) as (jl & jr & d & Hl & Hr & Hd & HL & HR).
  intros eps He.
  destruct (HC jl (proj1 Hl) x eps He) as (dl & Hdl & El).
  destruct (HC jr (proj1 Hr) x eps He) as (dr & Hdr & Er).
  exists (Rmin d (Rmin dl dr)). split; [repeat apply Rmin_glb_lt; auto|].
  intros t (Ht1 & Ht2). simpl in *. unfold R_dist in *.
  assert (Rmin d (Rmin dl dr) <= d) by apply Rmin_l.
  assert (Rmin d (Rmin dl dr) <= Rmin dl dr) by apply Rmin_r.
  assert (Rmin dl dr <= dl) by apply Rmin_l. assert (Rmin dl dr <= dr) by apply Rmin_r.
  destruct (Rle_dec t x) as [Htx|Htx].
  - rewrite (glued_eq HP (HL t ltac:(split; [apply Rabs_def2 in Ht2|]; lra))), (glued_eq HP Hl).
    apply El. split; auto. lra.
  - rewrite (glued_eq HP (HR t ltac:(split; [|apply Rabs_def2 in Ht2]; lra))), (glued_eq HP Hr).
    apply Er. split; auto. lra.
Qed.

Lemma glued_derivable P P' x : agree P -> agree P' ->
  (forall j t, (lo <= j <= hi)%Z -> derivable_pt_lim (P j) t (P' j t)) ->
  derivable_pt_lim (glued P) x (glued P' x).
Proof using Hlo Hg.
  intros HP HP' HD. destruct (glued_local x) as (jl & jr & d & Hl & Hr & Hd & HL & HR).
  intros eps He.
  destruct (HD jl x (proj1 Hl) eps He) as (dl & El).
  destruct (HD jr x (proj1 Hr) eps He) as (dr & Er).
  assert (Hm : 0 < Rmin d (Rmin dl dr)).
  { repeat apply Rmin_glb_lt; auto; [apply (cond_pos dl)|apply (cond_pos dr)]. }
  exists (mkposreal _ Hm). intros h Hh0 Hh. simpl in Hh.
  assert (Rmin d (Rmin dl dr) <= d) by apply Rmin_l.
  assert (Rmin d (Rmin dl dr) <= Rmin dl dr) by apply Rmin_r.
  assert (Rmin dl dr <= dl) by apply Rmin_l. assert (Rmin dl dr <= dr) by apply Rmin_r.
  destruct (Rle_dec h 0) as [Hh1|Hh1].
  - rewrite (glued_eq HP (HL (x + h) ltac:(split; [apply Rabs_def2 in Hh|]; lra))),
      (glued_eq HP Hl), (glued_eq HP' Hl). apply El; auto. lra.
  - rewrite (glued_eq HP (HR (x + h) ltac:(split; [|apply Rabs_def2 in Hh]; lra))),
      (glued_eq HP Hr), (glued_eq HP' Hr). apply Er; auto. lra.
Qed.
End Glue.

(** ** Linear pieces *)
Definition dd (g f : Z -> R) (i : Z) : R := (f (i + 1)%Z - f i) / (g (i + 1)%Z - g i).

Definition lin_piece (g f : Z -> R) (j : Z) (x : R) : R := f j + dd g f j * (x - g j).

Definition lin1 (a : axis) (x : R) (f : Z -> R) : R :=
  glued (coord a) 0 (npts a - 2) (lin_piece (coord a) f) x.

(** ** Cubic pieces *)
Definition gap (g : Z -> R) (i : Z) : R := g (i + 1)%Z - g i.

(** Slope of the parabola through points i-1, i, i+1 at point i. *)
Definition mid_slope (g f : Z -> R) (i : Z) : R :=
  (gap g (i - 1) * dd g f i + gap g i * dd g f (i - 1)) / (gap g (i - 1) + gap g i).

Definition slope (a : axis) (f : Z -> R) (i : Z) : R :=
  let g := coord a in
  if (i =? 0)%Z then 2 * dd g f 0 - mid_slope g f 1
  else if (i =? npts a - 1)%Z then 2 * dd g f (npts a - 2) - mid_slope g f (npts a - 2)
  else mid_slope g f i.

(** The cubic on cell j with given end values and end slopes. *)
Definition herm_piece (a : axis) (f : Z -> R) (j : Z) (x : R) : R :=
  let g := coord a in
  let h := gap g j in
  let s := x - g j in
  let m0 := slope a f j in
  let m1 := slope a f (j + 1) in
  let q := dd g f j in
  f j + s * (m0 + s * ((3 * q - 2 * m0 - m1) / h + s * ((m0 + m1 - 2 * q) / (h * h)))).

Definition herm_piece' (a : axis) (f : Z -> R) (j : Z) (x : R) : R :=
  let g := coord a in
  let h := gap g j in
  let s := x - g j in
  let m0 := slope a f j in
  let m1 := slope a f (j + 1) in
  let q := dd g f j in
  m0 + s * (2 * ((3 * q - 2 * m0 - m1) / h) + s * (3 * ((m0 + m1 - 2 * q) / (h * h)))).

(** With linear extrapolation there are two more pieces, -1 and npts-1. *)
Definition cub_piece (lin : bool) (a : axis) (f : Z -> R) (j : Z) (x : R) : R :=
  if lin && (j =? -1)%Z then f 0%Z + slope a f 0 * (x - coord a 0)
  else if lin && (j =? npts a - 1)%Z
       then f (npts a - 1)%Z + slope a f (npts a - 1) * (x - coord a (npts a - 1))
  else herm_piece a f j x.

Definition cub_piece' (lin : bool) (a : axis) (f : Z -> R) (j : Z) (x : R) : R :=
  if lin && (j =? -1)%Z then slope a f 0
  else if lin && (j =? npts a - 1)%Z then slope a f (npts a - 1)
  else herm_piece' a f j x.

Definition cub_lo (lin : bool) : Z := if lin then (-1)%Z else 0%Z.
Definition cub_hi (lin : bool) (a : axis) : Z := if lin then (npts a - 1)%Z else (npts a - 2)%Z.

Definition cub1 (lin : bool) (a : axis) (x : R) (f : Z -> R) : R :=
  glued (coord a) (cub_lo lin) (cub_hi lin a) (cub_piece lin a f) x.
Definition cub1' (lin : bool) (a : axis) (x : R) (f : Z -> R) : R :=
  glued (coord a) (cub_lo lin) (cub_hi lin a) (cub_piece' lin a f) x.

(** ** Facts about axes *)
Section Axis.
Variable a : axis.
Hypothesis Ha : increasing_axis a.

Lemma axis_gap i : (0 <= i)%Z -> (i + 1 < npts a)%Z -> 0 < gap (coord a) i.
Proof using Ha. intros. unfold gap. assert (coord a i < coord a (i + 1)%Z) by (apply Ha; lia). lra. Qed.

Lemma axis_le i j : (0 <= i <= j)%Z -> (j < npts a)%Z -> coord a i <= coord a j.
Proof using Ha.
  intros. destruct (Z.eq_dec i j) as [->|]; [lra|]. left. apply Ha; lia.
Qed.

Section Lin.
Hypothesis Hn : (2 <= npts a)%Z.

Lemma lin_knots : knots_inc (coord a) 0 (npts a - 2).
Proof using Ha. intros i j H1 H2. apply Ha; lia. Qed.

Lemma lin_agree f : agree (coord a) 0 (npts a - 2) (lin_piece (coord a) f).
Proof using Ha.
  intros j Hj. unfold lin_piece, dd. replace (j - 1 + 1)%Z with j by lia.
  assert (0 < gap (coord a) (j - 1)) by (apply axis_gap; lia).
  unfold gap in H. replace (j - 1 + 1)%Z with j in H by lia.
  assert (E : coord a j - coord a j = 0) by ring. rewrite E, Rmult_0_r. field. lra.
Qed.

Lemma in_cell_adm x o : in_cell a x o <-> adm (coord a) 0 (npts a - 2) x o.
Proof using. reflexivity. Qed.

Lemma lin1_eq x f o : in_cell a x o -> lin1 a x f = lin_piece (coord a) f o x.
Proof using Ha Hn.
  intros H. assert (E : (0 <= npts a - 2)%Z) by lia. apply (glued_eq E lin_knots (@lin_agree f) H).
Qed.

Lemma in_cell_ex x : exists o, in_cell a x o.
Proof using Hn. exists (cell_of (coord a) 0 (npts a - 2) x). apply cell_of_adm. lia. Qed.

Lemma lin1_lf x : lf (npts a) (lin1 a x).
Proof using Ha Hn.
  destruct (in_cell_ex x) as (o & Ho). repeat split.
  - intros. rewrite !(lin1_eq _ Ho). unfold lin_piece, dd, Rdiv. ring.
  - intros. rewrite !(lin1_eq _ Ho). unfold lin_piece, dd, Rdiv. ring.
  - intros f h E. rewrite !(lin1_eq _ Ho). destruct Ho as (Ho & _).
    unfold lin_piece, dd. rewrite !E by lia. reflexivity.
Qed.

Lemma lin1_weights x f o : in_cell a x o ->
  lin1 a x f = (1 - local_coord a x o) * f o + local_coord a x o * f (o + 1)%Z.
Proof using Ha Hn.
  intros H. rewrite (lin1_eq _ H). unfold lin_piece, dd, local_coord. 
  assert (0 < gap (coord a) o) by (apply axis_gap; destruct H; lia). unfold gap in H0. field. lra.
Qed.

Lemma lin1_exact x (u v : R) : lin1 a x (fun i => u + v * coord a i) = u + v * x.
Proof using Ha Hn.
  destruct (in_cell_ex x) as (o & H). rewrite (lin1_eq _ H). unfold lin_piece, dd.
  assert (0 < gap (coord a) o) by (apply axis_gap; destruct H; lia). unfold gap in H0. field. lra.
Qed.

Lemma in_cell_node i : (0 <= i < npts a)%Z -> in_cell a (coord a i) (Z.min i (npts a - 2)).
Proof using Ha Hn.
  intros Hi. repeat split; try lia.
  - right. apply axis_le; lia.
  - destruct (Z.eq_dec (Z.min i (npts a - 2)) (npts a - 2)); auto. right. apply axis_le; lia.
Qed.

Lemma lin1_node i f : (0 <= i < npts a)%Z -> lin1 a (coord a i) f = f i.
Proof using Ha Hn.
  intros Hi. rewrite (lin1_eq _ (in_cell_node Hi)). unfold lin_piece, dd.
  assert (G : 0 < gap (coord a) (Z.min i (npts a - 2))) by (apply axis_gap; lia). unfold gap in G.
  destruct (Z_le_gt_dec i (npts a - 2)).
  - rewrite Z.min_l in * by lia. field. lra.
  - rewrite Z.min_r in * by lia. replace (npts a - 2 + 1)%Z with i in * by lia. field. lra.
Qed.

Lemma lin1_bounds x f o m M : (0 <= o <= npts a - 2)%Z -> coord a o <= x <= coord a (o + 1) ->
  (forall i, (o <= i <= o + 1)%Z -> m <= f i <= M) -> m <= lin1 a x f <= M.
Proof using Ha Hn.
  intros Ho Hx Hf. rewrite (@lin1_weights x f o) by (split; [lia|split; right; lra]).
  assert (G : 0 < gap (coord a) o) by (apply axis_gap; lia). unfold gap in G.
  assert (Ht : 0 <= local_coord a x o <= 1).
  { unfold local_coord. split.
    - apply Rmult_le_reg_r with (1 := G). field_simplify; lra.
    - apply Rmult_le_reg_r with (1 := G). field_simplify; lra. }
  pose proof (Hf o ltac:(lia)). pose proof (Hf (o + 1)%Z ltac:(lia)). nra.
Qed.

Lemma lin1_continuous f x : continuity_pt (fun t => lin1 a t f) x.
Proof using Ha Hn.
  apply (@glued_continuous (coord a) 0 (npts a - 2) ltac:(lia) lin_knots (lin_piece (coord a) f)).
  - apply lin_agree.
  - intros j _. unfold lin_piece. reg.
Qed.
End Lin.

Section Cub.
Hypothesis Hn : (4 <= npts a)%Z.
Variable lin : bool.

Lemma cub_knots : knots_inc (coord a) (cub_lo lin) (cub_hi lin a).
Proof using Ha. unfold cub_lo, cub_hi. destruct lin; intros i j H1 H2; apply Ha; lia. Qed.

Lemma cub_lohi : (cub_lo lin <= cub_hi lin a)%Z.
Proof using Hn. unfold cub_lo, cub_hi. destruct lin; lia. Qed.

Lemma herm_left f j : herm_piece a f j (coord a j) = f j.
Proof using. unfold herm_piece. assert (E : coord a j - coord a j = 0) by ring. rewrite E. ring. Qed.

Lemma herm_left' f j : herm_piece' a f j (coord a j) = slope a f j.
Proof using. unfold herm_piece'. assert (E : coord a j - coord a j = 0) by ring. rewrite E. ring. Qed.

Lemma herm_right f j : (0 <= j <= npts a - 2)%Z -> herm_piece a f j (coord a (j + 1)) = f (j + 1)%Z.
Proof using Ha.
  intros Hj. assert (G : 0 < gap (coord a) j) by (apply axis_gap; lia).
  unfold herm_piece. fold (gap (coord a) j).
  unfold dd. fold (gap (coord a) j). field. lra.
Qed.

Lemma herm_right' f j : (0 <= j <= npts a - 2)%Z -> herm_piece' a f j (coord a (j + 1)) = slope a f (j + 1).
Proof using Ha.
  intros Hj. assert (G : 0 < gap (coord a) j) by (apply axis_gap; lia).
  unfold herm_piece'. fold (gap (coord a) j).
  unfold dd. fold (gap (coord a) j). field. lra.
Qed.

Lemma cub_agree f : agree (coord a) (cub_lo lin) (cub_hi lin a) (cub_piece lin a f).
Proof using Ha Hn.
  intros j Hj. unfold cub_piece, cub_lo, cub_hi in *.
  destruct lin; cbn [andb].
  - destruct (Z.eqb_spec (j - 1) (-1)).
    + replace j with 0%Z in * by lia. rewrite herm_left.
      destruct (Z.eqb_spec 0 (-1)); [lia|]. destruct (Z.eqb_spec 0 (npts a - 1)); [lia|]. ring.
    + destruct (Z.eqb_spec j (-1)); [lia|]. destruct (Z.eqb_spec (j - 1) (npts a - 1)); [lia|].
      destruct (Z.eqb_spec j (npts a - 1)) as [->|].
      * replace (coord a (npts a - 1)) with (coord a (npts a - 1 - 1 + 1)) at 1 by (f_equal; lia).
        rewrite herm_right by lia. replace (npts a - 1 - 1 + 1)%Z with (npts a - 1)%Z by lia. ring.
      * rewrite herm_left. replace (coord a j) with (coord a (j - 1 + 1)) by (f_equal; lia).
        rewrite herm_right by lia. f_equal; lia.
  - rewrite herm_left. replace (coord a j) with (coord a (j - 1 + 1)) by (f_equal; lia).
    rewrite herm_right by lia. f_equal; lia.
Qed.

Lemma cub_agree' f : agree (coord a) (cub_lo lin) (cub_hi lin a) (cub_piece' lin a f).
Proof using Ha Hn.
  intros j Hj. unfold cub_piece', cub_lo, cub_hi in *.
  destruct lin; cbn [andb].
  - destruct (Z.eqb_spec (j - 1) (-1)).
    + replace j with 0%Z in * by lia. rewrite herm_left'.
      destruct (Z.eqb_spec 0 (-1)); [lia|]. destruct (Z.eqb_spec 0 (npts a - 1)); [lia|]. ring.
    + destruct (Z.eqb_spec j (-1)); [lia|]. destruct (Z.eqb_spec (j - 1) (npts a - 1)); [lia|].
      destruct (Z.eqb_spec j (npts a - 1)) as [->|].
      * replace (coord a (npts a - 1)) with (coord a (npts a - 1 - 1 + 1)) at 1 by (f_equal; lia).
        rewrite herm_right' by lia. f_equal; lia.
      * rewrite herm_left'. replace (coord a j) with (coord a (j - 1 + 1)) by (f_equal; lia).
        rewrite herm_right' by lia. f_equal; lia.
  - rewrite herm_left'. replace (coord a j) with (coord a (j - 1 + 1)) by (f_equal; lia).
    rewrite herm_right' by lia. f_equal; lia.
Qed.

Lemma cub1_eq x f j : adm (coord a) (cub_lo lin) (cub_hi lin a) x j ->
  cub1 lin a x f = cub_piece lin a f j x.
Proof using Ha Hn. intros H. apply (glued_eq cub_lohi cub_knots (@cub_agree f) H). Qed.

Lemma cub1_eq' x f j : adm (coord a) (cub_lo lin) (cub_hi lin a) x j ->
  cub1' lin a x f = cub_piece' lin a f j x.
Proof using Ha Hn. intros H. apply (glued_eq cub_lohi cub_knots (@cub_agree' f) H). Qed.

Lemma dd_plus g f h i : dd g (fun k => f k + h k) i = dd g f i + dd g h i.
Proof using. unfold dd, Rdiv. ring. Qed.
Lemma dd_scal g f u i : dd g (fun k => u * f k) i = u * dd g f i.
Proof using. unfold dd, Rdiv. ring. Qed.
Lemma slope_plus f h i : slope a (fun k => f k + h k) i = slope a f i + slope a h i.
Proof using.
  unfold slope, mid_slope. rewrite !dd_plus. unfold Rdiv.
  destruct (i =? 0)%Z; [ring|]. destruct (i =? npts a - 1)%Z; ring.
Qed.
Lemma slope_scal f u i : slope a (fun k => u * f k) i = u * slope a f i.
Proof using.
  unfold slope, mid_slope. rewrite !dd_scal. unfold Rdiv.
  destruct (i =? 0)%Z; [ring|]. destruct (i =? npts a - 1)%Z; ring.
Qed.
Lemma dd_ext g f h i : (forall k, (i <= k <= i + 1)%Z -> f k = h k) -> dd g f i = dd g h i.
Proof using. intros E. unfold dd. rewrite !E by lia. reflexivity. Qed.
Lemma slope_ext f h i : (0 <= i < npts a)%Z -> (forall k, (0 <= k < npts a)%Z -> f k = h k) ->
  slope a f i = slope a h i.
Proof using Hn.
  intros Hi E. unfold slope, mid_slope.
  destruct (Z.eqb_spec i 0); [subst|].
  - rewrite !(@dd_ext _ f h) by (intros; apply E; lia). reflexivity.
  - destruct (Z.eqb_spec i (npts a - 1)); rewrite !(@dd_ext _ f h) by (intros; apply E; lia); reflexivity.
Qed.

Lemma cub_adm_ex x : exists j, adm (coord a) (cub_lo lin) (cub_hi lin a) x j.
Proof using Hn. eexists. apply cell_of_adm, cub_lohi. Qed.

Lemma cub1_lf x : lf (npts a) (cub1 lin a x).
Proof using Ha Hn.
  destruct (cub_adm_ex x) as (j & Hj). repeat split.
  - intros. rewrite !(cub1_eq _ Hj). unfold cub_piece, herm_piece. rewrite !slope_plus, !dd_plus.
    unfold Rdiv. destruct (lin && _); [ring|]. destruct (lin && _); ring.
  - intros. rewrite !(cub1_eq _ Hj). unfold cub_piece, herm_piece. rewrite !slope_scal, !dd_scal.
    unfold Rdiv. destruct (lin && _); [ring|]. destruct (lin && _); ring.
  - intros f h E. rewrite !(cub1_eq _ Hj). destruct Hj as (Hj & _).
    unfold cub_piece, herm_piece, cub_lo, cub_hi in *.
    destruct lin; cbn [andb]; [destruct (Z.eqb_spec j (-1)); [|destruct (Z.eqb_spec j (npts a - 1))]|];
    rewrite ?(@slope_ext f h) by (auto; lia); rewrite ?(@dd_ext _ f h) by (intros; apply E; lia);
    rewrite ?E by lia; reflexivity.
Qed.

Lemma cub1_lf' x : lf (npts a) (cub1' lin a x).
Proof using Ha Hn.
  destruct (cub_adm_ex x) as (j & Hj). repeat split.
  - intros. rewrite !(cub1_eq' _ Hj). unfold cub_piece', herm_piece'. rewrite !slope_plus, !dd_plus.
    unfold Rdiv. destruct (lin && _); [ring|]. destruct (lin && _); ring.
  - intros. rewrite !(cub1_eq' _ Hj). unfold cub_piece', herm_piece'. rewrite !slope_scal, !dd_scal.
    unfold Rdiv. destruct (lin && _); [ring|]. destruct (lin && _); ring.
  - intros f h E. rewrite !(cub1_eq' _ Hj). destruct Hj as (Hj & _).
    unfold cub_piece', herm_piece', cub_lo, cub_hi in *.
    destruct lin; cbn [andb]; [destruct (Z.eqb_spec j (-1)); [|destruct (Z.eqb_spec j (npts a - 1))]|];
    rewrite ?(@slope_ext f h) by (auto; lia); rewrite ?(@dd_ext _ f h) by (intros; apply E; lia);
    rewrite ?E by lia; reflexivity.
Qed.

Lemma cub1_continuous f x : continuity_pt (fun t => cub1 lin a t f) x.
Proof using Ha Hn.
  apply (@glued_continuous _ _ _ cub_lohi cub_knots (cub_piece lin a f)).
  - apply cub_agree.
  - intros j _. unfold cub_piece, herm_piece. destruct (lin && _); [reg|].
    destruct (lin && _); reg.
Qed.

Lemma cub1_continuous' f x : continuity_pt (fun t => cub1' lin a t f) x.
Proof using Ha Hn.
  apply (@glued_continuous _ _ _ cub_lohi cub_knots (cub_piece' lin a f)).
  - apply cub_agree'.
  - intros j _. unfold cub_piece', herm_piece'. destruct (lin && _); [reg|].
    destruct (lin && _); reg.
Qed.

Lemma cub1_derivable f x : derivable_pt_lim (fun t => cub1 lin a t f) x (cub1' lin a x f).
Proof using Ha Hn.
  apply (@glued_derivable _ _ _ cub_lohi cub_knots (cub_piece lin a f) (cub_piece' lin a f)).
  - apply cub_agree.
  - apply cub_agree'.
  - intros j t _. unfold cub_piece, cub_piece', herm_piece, herm_piece'.
    destruct (lin && _); [|destruct (lin && _)].
    + apply affine_derivable.
    + apply affine_derivable.
    + apply cubic_derivable.
Qed.

(** The boundary cells, as the parabola through the three outermost points. *)
Definition low_parabola (f : Z -> R) (x : R) : R :=
  let g := coord a in
  f 0%Z + (x - g 0%Z) * (dd g f 0 + (x - g 1%Z) * ((dd g f 1 - dd g f 0) / (g 2%Z - g 0%Z))).

Definition high_parabola (f : Z -> R) (x : R) : R :=
  let g := coord a in let n := npts a in
  f (n - 1)%Z + (x - g (n - 1)%Z) * (dd g f (n - 2)
    + (x - g (n - 2)%Z) * ((dd g f (n - 2) - dd g f (n - 3)) / (g (n - 1)%Z - g (n - 3)%Z))).

Lemma herm_low f x : herm_piece a f 0 x = low_parabola f x.
Proof using Ha Hn.
  assert (G0 : 0 < gap (coord a) 0) by (apply axis_gap; lia).
  assert (G1 : 0 < gap (coord a) 1) by (apply axis_gap; lia).
  unfold herm_piece, low_parabola, slope.
  replace (0 =? 0)%Z with true by lia. replace (0 + 1 =? 0)%Z with false by lia.
  replace (0 + 1 =? npts a - 1)%Z with false by lia.
  unfold mid_slope, dd, gap in *. change (0 + 1)%Z with 1%Z in *. change (1 + 1)%Z with 2%Z in *.
  change (1 - 1)%Z with 0%Z in *. change (0 + 1)%Z with 1%Z in *. field. lra.
Qed.

Lemma herm_high f x : herm_piece a f (npts a - 2) x = high_parabola f x.
Proof using Ha Hn.
  assert (G0 : 0 < gap (coord a) (npts a - 3)) by (apply axis_gap; lia).
  assert (G1 : 0 < gap (coord a) (npts a - 2)) by (apply axis_gap; lia).
  unfold herm_piece, high_parabola, slope.
  replace (npts a - 2 =? 0)%Z with false by lia. replace (npts a - 2 + 1 =? 0)%Z with false by lia.
  replace (npts a - 2 + 1 =? npts a - 1)%Z with true by lia.
  replace (npts a - 2 =? npts a - 1)%Z with false by lia.
  unfold mid_slope, dd, gap in *. replace (npts a - 2 + 1)%Z with (npts a - 1)%Z in * by lia.
  replace (npts a - 2 - 1)%Z with (npts a - 3)%Z in * by lia.
  replace (npts a - 3 + 1)%Z with (npts a - 2)%Z in * by lia. field. lra.
Qed.

(** Slopes and pieces of sampled quadratics. *)
Lemma slope_quad u v w i : (0 <= i < npts a)%Z ->
  slope a (fun k => u + v * coord a k + w * coord a k * coord a k) i = v + 2 * w * coord a i.
Proof using Ha Hn.
  intros Hi. unfold slope.
  assert (M : forall i, (0 < i < npts a - 1)%Z ->
    mid_slope (coord a) (fun k => u + v * coord a k + w * coord a k * coord a k) i = v + 2 * w * coord a i).
  { clear i Hi. intros i Hi. assert (G0 : 0 < gap (coord a) (i - 1)) by (apply axis_gap; lia).
    assert (G1 : 0 < gap (coord a) i) by (apply axis_gap; lia).
    unfold mid_slope, dd, gap in *. replace (i - 1 + 1)%Z with i in * by lia. field. lra. }
  destruct (Z.eqb_spec i 0) as [->|].
  - rewrite M by lia. assert (G0 : 0 < gap (coord a) 0) by (apply axis_gap; lia).
    unfold dd, gap in *. change (0 + 1)%Z with 1%Z in *. field. lra.
  - destruct (Z.eqb_spec i (npts a - 1)) as [->|].
    + rewrite M by lia. assert (G0 : 0 < gap (coord a) (npts a - 2)) by (apply axis_gap; lia).
      unfold dd, gap in *. replace (npts a - 2 + 1)%Z with (npts a - 1)%Z in * by lia. field. lra.
    + apply M. lia.
Qed.

Lemma herm_quad u v w j x : (0 <= j <= npts a - 2)%Z ->
  herm_piece a (fun k => u + v * coord a k + w * coord a k * coord a k) j x = u + v * x + w * x * x.
Proof using Ha Hn.
  intros Hj. unfold herm_piece. rewrite !slope_quad by lia.
  assert (G0 : 0 < gap (coord a) j) by (apply axis_gap; lia).
  unfold dd, gap in *. field. lra.
Qed.

(** Where the pieces are. *)
Lemma in_cell_cub x j : in_cell a x j -> (coord a 0 <= x <= coord a (npts a - 1) \/ lin = false) ->
  adm (coord a) (cub_lo lin) (cub_hi lin a) x j.
Proof using Hn.
  intros (H1 & H2 & H3) Hx. unfold cub_lo, cub_hi, adm in *. destruct lin.
  - destruct Hx as [Hx|]; [|discriminate]. split; [lia|]. split.
    + destruct H2 as [->|]; [right; lra|auto].
    + destruct H3 as [->|]; [|auto]. right. replace (npts a - 2 + 1)%Z with (npts a - 1)%Z by lia. lra.
  - split; [lia|]. split; auto.
Qed.

Lemma cub_piece_herm f j x : (0 <= j <= npts a - 2)%Z -> cub_piece lin a f j x = herm_piece a f j x.
Proof using.
  intros Hj. unfold cub_piece. replace (j =? -1)%Z with false by lia.
  replace (j =? npts a - 1)%Z with false by lia. rewrite !andb_false_r. reflexivity.
Qed.

Lemma cub1_herm f x j : in_cell a x j -> (coord a 0 <= x <= coord a (npts a - 1) \/ lin = false) ->
  cub1 lin a x f = herm_piece a f j x.
Proof using Ha Hn.
  intros H1 H2. rewrite (cub1_eq f (in_cell_cub H1 H2)). apply cub_piece_herm. apply H1.
Qed.

Lemma cub1_low f x : lin = true -> x <= coord a 0 ->
  cub1 lin a x f = f 0%Z + slope a f 0 * (x - coord a 0).
Proof using Ha Hn.
  intros Hl Hx. rewrite (@cub1_eq x f (-1)).
  - unfold cub_piece. rewrite Hl. reflexivity.
  - unfold cub_lo, cub_hi, adm. rewrite Hl. split; [lia|]. split; auto.
Qed.

Lemma cub1_high f x : lin = true -> coord a (npts a - 1) <= x ->
  cub1 lin a x f = f (npts a - 1)%Z + slope a f (npts a - 1) * (x - coord a (npts a - 1)).
Proof using Ha Hn.
  intros Hl Hx. rewrite (@cub1_eq x f (npts a - 1)).
  - unfold cub_piece. rewrite Hl. replace (npts a - 1 =? -1)%Z with false by lia.
    rewrite Z.eqb_refl. reflexivity.
  - unfold cub_lo, cub_hi, adm. rewrite Hl. split; [lia|]. split; auto.
Qed.

Lemma cub1_quad u v w x : (coord a 0 <= x <= coord a (npts a - 1) \/ lin = false) ->
  cub1 lin a x (fun k => u + v * coord a k + w * coord a k * coord a k) = u + v * x + w * x * x.
Proof using Ha Hn.
  intros Hx. destruct (@in_cell_ex ltac:(lia) x) as (j & Hj).
  rewrite (cub1_herm _ Hj Hx). apply herm_quad. apply Hj.
Qed.

Lemma cub1_affine u v x : cub1 lin a x (fun k => u + v * coord a k) = u + v * x.
Proof using Ha Hn.
  rewrite (lf_ext (L := cub1 lin a x) _ (fun k => u + v * coord a k + 0 * coord a k * coord a k) (cub1_lf x))
    by (intros; ring).
  destruct (Bool.bool_dec lin true) as [El|El].
  - destruct (Rle_dec x (coord a 0)); [|destruct (Rle_dec (coord a (npts a - 1)) x)].
    + rewrite cub1_low by auto. rewrite slope_quad by lia. ring.
    + rewrite cub1_high by auto. rewrite slope_quad by lia. ring.
    + rewrite cub1_quad by (left; lra). ring.
  - rewrite cub1_quad by (right; destruct lin; congruence). ring.
Qed.

Lemma cub1_node i f : (0 <= i < npts a)%Z -> cub1 lin a (coord a i) f = f i.
Proof using Ha Hn.
  intros Hi. rewrite (@cub1_herm f _ _ (@in_cell_node ltac:(lia) i Hi)).
  - destruct (Z_le_gt_dec i (npts a - 2)).
    + rewrite Z.min_l by lia. apply herm_left.
    + rewrite Z.min_r by lia. replace (coord a i) with (coord a (npts a - 2 + 1)) by (f_equal; lia).
      rewrite herm_right by lia. f_equal. lia.
  - left. split; apply axis_le; auto; lia.
Qed.
End Cub.
End Axis.
