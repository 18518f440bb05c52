(** The one-dimensional interpolators in exact arithmetic, and what holds of them for
    every number type. *)
From Coq Require Import Reals Lra PeanoNat Bool Sorted ZifyBool ZifyNat.
From Flocq Require Import Core.Raux.
From Verif Require Import Base Ops ModelCore ModelOneDim RInst Spec SpecReal SpecOrder Spec1D Interpolators.
From Verif Require Import CoreLemmas SearchLemmas RTensor R1D RChar RProofs OrderLemmas.
Open Scope R_scope.

Definition extrap_R (a : axis) (x : R) (e : extrap) : Prop :=
  match e with
  | ExtrapLow => x < coord a 0
  | ExtrapHigh => coord a (npts a - 1) < x
  | Inside => coord a 0 <= x <= coord a (npts a - 1)
  end.

Lemma sorted_grid g : strictly_increasing g -> increasing_grid ROps g.
Proof.
  intros Hg i j a b Hij Ha Hb. simpl. apply Rltb_true.
  assert (Lj : (j < length g)%nat) by (apply nth_error_Some; congruence).
  rewrite <- (nth_error_nth _ _ 0 Ha), <- (nth_error_nth _ _ 0 Hb). apply sorted_nth; auto.
Qed.

(** Regular grid: the cell is the clipped floor. *)
Lemma r1_at_R c start step vals g x : (2 <= zlen vals <= isize_max)%Z -> 0 < step ->
  r1_new ROps c start step vals = Ok g ->
  IZR isize_min <= (x - start) / step < IZR (isize_max + 1) ->
  let a := mkAxis (zlen vals) (fun i => start + step * IZR i) in
  let i := Z.min (Z.max (Zfloor ((x - start) / step)) 0) (zlen vals - 2) in
  exists e, r1_at ROps c g x
    = Ok (mkSample (coord a i) (val_at vals i) (coord a (i + 1)) (val_at vals (i + 1)) e) /\
    in_cell a x i /\ extrap_R a x e.
Proof.
  intros Hn Hs Hg Hd a i. unfold r1_new in Hg.
  rewrite usize_sub_ok in Hg by (unfold two64, isize_max in *; lia). cbn [bind] in Hg.
  simpl in Hg. inversion Hg; subst g; clear Hg.
  destruct (@R_to_isize_fits isize_min ((x - start) / step) ltac:(lia) Hd) as (Ei & _).
  unfold r1_at, r1_index. cbn [r1_start r1_stop r1_step r1_vals]. simpl ok_or.
  change (ffloor ROps) with (fun x => IZR (Zfloor x)). simpl (to_isize ROps _).
  cbn [fdiv fsub ROps]. rewrite Ei. cbn [bind ok_or].
  rewrite usize_sub_ok by (unfold two64, isize_max in *; lia). cbn [bind].
  rewrite as_isize_small by lia.
  assert (Hi : (0 <= i <= zlen vals - 2)%Z) by (unfold i; lia).
  fold i. assert (Eu : as_usize i = i) by (unfold as_usize; rewrite Z.mod_small; unfold two64, isize_max in *; lia).
  rewrite Eu. rewrite (@idx_nth _ _ i 0) by lia. cbn [bind].
  rewrite usize_add_ok by (unfold two64, isize_max in *; lia). cbn [bind].
  rewrite (@idx_nth _ _ (i + 1)%Z 0) by lia. cbn [bind].
  eexists. split; [|split].
  - unfold a. cbn [coord]. repeat f_equal. simpl. rewrite plus_IZR. ring.
  - destruct (@floor_bracket start step x _ Hs eq_refl) as (B1 & B2).
    set (q := Zfloor ((x - start) / step)) in *. unfold in_cell, a. cbn [npts coord].
    split; [lia|]. split.
    + destruct (Z.eq_dec i 0); auto. right.
      eapply Rle_trans; [|apply B1]. apply grid_mono; auto. lia.
    + destruct (Z.eq_dec i (zlen vals - 2)); auto. right.
      left. eapply Rlt_le_trans; [apply B2|]. apply grid_mono; auto. lia.
  - simpl flt. unfold extrap_R, a. cbn [npts coord].
    destruct (Rltb _ x) eqn:E1.
    + apply Rltb_true in E1. exact E1.
    + apply Rltb_false in E1. destruct (Rltb x start) eqn:E2.
      * apply Rltb_true in E2. rewrite Rmult_0_r, Rplus_0_r. exact E2.
      * apply Rltb_false in E2. rewrite Rmult_0_r, Rplus_0_r. auto.
Qed.

Lemma c1_at_R c grid vals g x : (zlen vals <= isize_max)%Z -> strictly_increasing grid ->
  c1_new grid vals = Ok g ->
  let a := list_axis grid in let i := clipped_cell ROps x grid in
  exists e, c1_at ROps c g x
    = Ok (mkSample (coord a i) (val_at vals i) (coord a (i + 1)) (val_at vals (i + 1)) e) /\
    in_cell a x i /\ extrap_R a x e /\ zlen grid = zlen vals /\ (2 <= zlen grid)%Z.
Proof.
  intros Hn Hs Hg a i. unfold c1_new in Hg. destruct (_ || _) eqn:Ec; [discriminate|].
  inversion Hg; subst g; clear Hg.
  assert (El : length grid = length vals) by lia. assert (Hl : (2 <= length grid)%nat) by lia.
  assert (P : prefix_true (fun v => flt ROps v x) grid)
    by (apply increasing_prefix; [apply ROps_transitive|apply sorted_grid; auto]).
  assert (Ez : zlen grid = zlen vals) by (unfold zlen; lia).
  assert (Hz : (2 <= zlen grid <= isize_max)%Z) by (unfold zlen in *; lia).
  destruct (@c1_index_spec _ ROps c _ vals x P Hz) as (e & E & Xe). fold i in E.
  destruct (@clipped_bracketing _ _ _ _ P (proj1 Hz)) as (Ri & B1 & B2). fold i in Ri, B1, B2.
  unfold c1_at. rewrite E. cbn [bind c1_grid c1_vals].
  rewrite (@idx_nth _ grid i 0) by lia. cbn [bind].
  rewrite usize_add_ok by (unfold two64, isize_max in *; lia). cbn [bind].
  rewrite (@idx_nth _ grid (i + 1)%Z 0) by lia. cbn [bind].
  rewrite (@idx_nth _ vals i 0) by lia. cbn [bind].
  rewrite (@idx_nth _ vals (i + 1)%Z 0) by lia. cbn [bind].
  exists e. split; [reflexivity|]. split; [|split; [|split; lia]].
  - unfold in_cell, a. cbn [npts coord list_axis]. split; [lia|]. split.
    + destruct (Z.eq_dec i 0); auto. right. left.
      specialize (B1 (nth (Z.to_nat i) grid 0) ltac:(lia) ltac:(apply nth_error_nth'; unfold zlen in *; lia)).
      apply Rltb_true in B1. exact B1.
    + destruct (Z.eq_dec i (zlen grid - 2)); auto. right.
      specialize (B2 (nth (Z.to_nat (i + 1)) grid 0) ltac:(lia) ltac:(apply nth_error_nth'; unfold zlen in *; lia)).
      apply Rltb_false in B2. exact B2.
  - unfold extrap_of in Xe. destruct grid as [|g0 grid]; [simpl in Hl; lia|].
    rewrite last_nth in Xe. unfold extrap_R, a. cbn [npts coord list_axis].
    replace (Z.to_nat (zlen (g0 :: grid) - 1)) with (length (g0 :: grid) - 1)%nat by (unfold zlen; lia).
    rewrite (nth_indep (g0 :: grid) 0 g0 (n := length (g0 :: grid) - 1)) by (simpl; lia).
    change (nth (Z.to_nat 0) (g0 :: grid) 0) with g0. simpl flt in Xe.
    destruct e.
    + destruct Xe as (X1 & X2). apply Rltb_false in X1. apply Rltb_false in X2. auto.
    + apply Rltb_true in Xe. auto.
    + destruct Xe as (_ & X2). apply Rltb_true in X2. auto.
Qed.

Lemma grid1_at c vals a dom at_ x : grid1 c vals a dom at_ -> dom x ->
  npts a = zlen vals /\ good_axis 2 a /\
  exists i e, at_ x = Ok (mkSample (coord a i) (val_at vals i) (coord a (i + 1)) (val_at vals (i + 1)) e) /\
    in_cell a x i /\ extrap_R a x e.
Proof.
  intros H D. destruct H as [start step g Hn Hs Hg|grid g Hn Hs Hg].
  - split; [reflexivity|]. split; [split; [apply reg_axis_inc; auto|simpl; lia]|].
    destruct (@r1_at_R _ _ _ _ _ _ Hn Hs Hg D) as (e & H). eauto.
  - destruct (@c1_at_R c _ _ _ x Hn Hs Hg) as (e & H1 & H2 & H3 & H4 & H5).
    split; [simpl; auto|]. split; [split; [apply list_axis_inc; auto|simpl; lia]|]. eauto.
Qed.

Ltac at_grid H D i e := 
  let N := fresh "N" in let G := fresh "G" in let A := fresh "A" in let C := fresh "C" in let X := fresh "X" in
  destruct (grid1_at _ H D) as (N & G & i & e & A & C & X).

(** ** C29 *)
Theorem C29_proof c c' vals a a' dom dom' at_ eval x :
  grid1 c vals a dom at_ -> multilinear c' vals [a'] dom' eval -> same_axis a a' ->
  dom x -> dom' [x] -> linear1 ROps c at_ x = eval [x].
Proof.
  intros H H' (Sn & Sc) D D'. at_grid H D i e.
  destruct C as (Ci & C1 & C2).
  rewrite (@C01_proof c' vals [a'] dom' eval [x] [i] H').
  2:{ split; auto. split; auto. intros [|k] b Hb; [|destruct k; discriminate].
      inversion Hb; subst b. cbn [nth]. unfold in_cell. rewrite <- Sn. split; auto.
      rewrite <- !Sc by lia. auto. }
  2:{ exact D'. }
  unfold linear1. rewrite A. cbn [bind]. f_equal. unfold line_through. cbn [sx0 sy0 sx1 sy1].
  assert (P : 0 < coord a (i + 1) - coord a i).
  { destruct G as (G & _). specialize (G i (i + 1)%Z ltac:(lia) ltac:(lia)). lra. }
  unfold corner_sum, entry, local_coords, local_coord, val_at. cbn -[IZR].
  rewrite <- !Sc by lia. rewrite !Z.mul_1_r, !Z.add_0_r.
  destruct (use_fma c); simpl; field; lra.
Qed.

(** ** C30 *)
Theorem C30_proof_inside c vals a dom at_ x : grid1 c vals a dom at_ -> dom x ->
  coord a 0 <= x <= coord a (npts a - 1) -> hold_last1 ROps c at_ x = linear1 ROps c at_ x.
Proof.
  intros H D Hx. at_grid H D i e. unfold hold_last1, linear1. rewrite A. cbn [bind sextrap].
  destruct e; simpl in X; auto; exfalso; lra.
Qed.

Lemma low_cell a x i : good_axis 2 a -> in_cell a x i -> x < coord a 1 -> i = 0%Z.
Proof.
  intros (G & Hn) (R & C & _) Hx. destruct (Z.eq_dec i 0); auto. exfalso.
  destruct C; [auto|]. assert (coord a 1 <= coord a i); [|lra].
  destruct (Z.eq_dec i 1) as [->|]; [lra|]. left. apply G; lia.
Qed.
Lemma high_cell a x i : good_axis 2 a -> in_cell a x i -> coord a (npts a - 2) < x -> i = (npts a - 2)%Z.
Proof.
  intros (G & Hn) (R & _ & C) Hx. destruct (Z.eq_dec i (npts a - 2)); auto. exfalso.
  destruct C; [auto|]. assert (coord a (i + 1) <= coord a (npts a - 2)); [|lra].
  destruct (Z.eq_dec (i + 1) (npts a - 2)) as [->|]; [lra|]. left. apply G; lia.
Qed.
Lemma mid_cell a x i j : good_axis 2 a -> in_cell a x i -> (0 <= j <= npts a - 2)%Z ->
  coord a j < x < coord a (j + 1) -> i = j.
Proof.
  intros (G & Hn) (R & C1 & C2) Hj Hx. destruct (Z.lt_trichotomy i j) as [L|[E|L]]; auto; exfalso.
  - destruct C2 as [->|C2]; [lia|]. assert (coord a (i + 1) <= coord a j); [|lra].
    destruct (Z.eq_dec (i + 1) j) as [->|]; [lra|]. left. apply G; lia.
  - destruct C1 as [->|C1]; [lia|]. assert (coord a (j + 1) <= coord a i); [|lra].
    destruct (Z.eq_dec (j + 1) i) as [->|]; [lra|]. left. apply G; lia.
Qed.

Lemma coord_ends a : good_axis 2 a -> coord a 0 < coord a 1 /\ coord a (npts a - 2) < coord a (npts a - 1)
  /\ coord a 0 < coord a (npts a - 1).
Proof. intros (G & Hn). repeat split; apply G; lia. Qed.

Lemma outside_low c vals a dom at_ x : grid1 c vals a dom at_ -> dom x -> x < coord a 0 ->
  exists s, at_ x = Ok s /\ sx0 s = coord a 0 /\ sx1 s = coord a 1 /\ sy0 s = val_at vals 0 /\ sextrap s = ExtrapLow /\ coord a 0 < coord a 1.
Proof.
  intros H D Hx. at_grid H D i e. destruct (coord_ends G) as (E1 & E2 & E3).
  assert (i = 0%Z) by (eapply low_cell; eauto; lra). subst i.
  eexists. split; [exact A|]. cbn [sx0 sx1 sy0 sy1 sextrap]. repeat split; auto.
  destruct e; simpl in X; auto; exfalso; lra.
Qed.
Lemma outside_high c vals a dom at_ x : grid1 c vals a dom at_ -> dom x -> coord a (npts a - 1) < x ->
  exists s, at_ x = Ok s /\ sx0 s = coord a (npts a - 2) /\ sx1 s = coord a (npts a - 1) /\ sy1 s = val_at vals (zlen vals - 1) /\ sextrap s = ExtrapHigh /\
   coord a (npts a - 2) < coord a (npts a - 1).
Proof.
  intros H D Hx. at_grid H D i e. destruct (coord_ends G) as (E1 & E2 & E3).
  assert (i = (npts a - 2)%Z) by (eapply high_cell; eauto; lra). subst i.
  eexists. split; [exact A|]. cbn [sx0 sx1 sy0 sy1 sextrap].
  replace (npts a - 2 + 1)%Z with (npts a - 1)%Z by lia. rewrite <- N. repeat split; auto.
  destruct e; simpl in X; auto; exfalso; lra.
Qed.

Theorem C30_proof_outside c vals a dom at_ x : grid1 c vals a dom at_ -> dom x ->
  (x < coord a 0 -> hold_last1 ROps c at_ x = Ok (val_at vals 0)) /\
  (coord a (npts a - 1) < x -> hold_last1 ROps c at_ x = Ok (val_at vals (zlen vals - 1))).
Proof.
  intros H D. split; intros Hx.
  - destruct (@outside_low _ _ _ _ _ _ H D Hx) as (s & A & _ & _ & Y & E & _).
    unfold hold_last1. rewrite A. cbn [bind]. rewrite E, Y. reflexivity.
  - destruct (@outside_high _ _ _ _ _ _ H D Hx) as (s & A & _ & _ & Y & E & _).
    unfold hold_last1. rewrite A. cbn [bind]. rewrite E, Y. reflexivity.
Qed.

(** ** C31 *)
Theorem C31_proof_between c vals a dom at_ x i : grid1 c vals a dom at_ -> dom x ->
  (0 <= i <= npts a - 2)%Z -> coord a i < x < coord a (i + 1) ->
  left1 at_ x = Ok (val_at vals i) /\ right1 at_ x = Ok (val_at vals (i + 1)).
Proof.
  intros H D Hi Hx. at_grid H D j e. assert (j = i) by (eapply mid_cell; eauto). subst j.
  unfold left1, right1. rewrite A. cbn [bind sextrap sy0 sy1].
  assert (e = Inside).
  { destruct G as (G & Hn). assert (coord a 0 <= coord a i).
    { destruct (Z.eq_dec i 0) as [->|]; [lra|]. left; apply G; lia. }
    assert (coord a (i + 1) <= coord a (npts a - 1)).
    { destruct (Z.eq_dec (i + 1) (npts a - 1)) as [->|]; [lra|]. left; apply G; lia. }
    destruct e; simpl in X; auto; exfalso; lra. }
  subst e. auto.
Qed.

Theorem C31_proof_outside c vals a dom at_ x : grid1 c vals a dom at_ -> dom x ->
  (x < coord a 0 -> left1 at_ x = Ok (val_at vals 0) /\ right1 at_ x = Ok (val_at vals 0)
     /\ nearest1 ROps at_ x = Ok (val_at vals 0)) /\
  (coord a (npts a - 1) < x -> left1 at_ x = Ok (val_at vals (zlen vals - 1))
     /\ right1 at_ x = Ok (val_at vals (zlen vals - 1)) /\ nearest1 ROps at_ x = Ok (val_at vals (zlen vals - 1))).
Proof.
  intros H D. split; intros Hx.
  - destruct (@outside_low _ _ _ _ _ _ H D Hx) as (s & A & X0 & X1 & Y & E & O).
    unfold left1, right1, nearest1. rewrite A. cbn [bind]. rewrite E, Y. repeat split.
    rewrite X0, X1. simpl. rewrite (proj2 (Rleb_true _ _)); auto.
    rewrite !Rabs_left by lra. lra.
  - destruct (@outside_high _ _ _ _ _ _ H D Hx) as (s & A & X0 & X1 & Y & E & O).
    unfold left1, right1, nearest1. rewrite A. cbn [bind]. rewrite E, Y. repeat split.
    rewrite X0, X1. simpl. rewrite (proj2 (Rleb_false _ _)); auto.
    rewrite !Rabs_right by lra. lra.
Qed.

Theorem C31_proof_nearest c vals a dom at_ x i : grid1 c vals a dom at_ -> dom x ->
  nearest_node a x i -> nearest1 ROps at_ x = Ok (val_at vals i).
Proof.
  intros H D (Ri & Hm). at_grid H D j e. unfold nearest1. rewrite A. cbn [bind sx0 sx1 sy0 sy1]. simpl.
  destruct C as (Rj & C1 & C2). destruct G as (G & Hn).
  assert (Gj : coord a j < coord a (j + 1)) by (apply G; lia).
  (* the nearest node is j or j + 1 *)
  assert (Le : forall k, (0 <= k < npts a)%Z -> (k < j)%Z -> coord a k < coord a j) by (intros; apply G; lia).
  assert (Lh : forall k, (0 <= k < npts a)%Z -> (j + 1 < k)%Z -> coord a (j + 1) < coord a k) by (intros; apply G; lia).
  destruct (Hm j ltac:(lia)) as (M0 & T0). destruct (Hm (j + 1)%Z ltac:(lia)) as (M1 & T1).
  assert (Ei : i = j \/ i = (j + 1)%Z).
  { destruct (Z.lt_trichotomy i j) as [L|[E|L]]; auto.
    - exfalso. specialize (Le i Ri L). destruct C1 as [->|C1]; [lia|].
      unfold Rabs in M0. destruct (Rcase_abs _), (Rcase_abs _); lra.
    - destruct (Z.eq_dec i (j + 1)); auto. exfalso. specialize (Lh i Ri ltac:(lia)).
      destruct C2 as [->|C2]; [lia|]. unfold Rabs in M1. destruct (Rcase_abs _), (Rcase_abs _); lra. }
  destruct (Rleb _ _) eqn:E.
  - apply Rleb_true in E. destruct Ei as [-> | ->]; auto. exfalso.
    specialize (T0 ltac:(lra)). lia.
  - apply Rleb_false in E. destruct Ei as [-> | ->]; auto. exfalso. lra.
Qed.

(** ** C32: what the code returns at the grid points *)
Lemma floor_node start step i : 0 < step -> Zfloor ((start + step * IZR i - start) / step) = i.
Proof. intros Hs. replace ((start + step * IZR i - start) / step) with (IZR i) by (field; lra). apply Zfloor_IZR. Qed.

Theorem C32_proof_regular c vals start step g i : (2 <= zlen vals <= isize_max)%Z -> 0 < step ->
  r1_new ROps c start step vals = Ok g -> (0 <= i < zlen vals)%Z ->
  left1 (r1_at ROps c g) (start + step * IZR i) = Ok (val_at vals (Z.min i (zlen vals - 2))) /\
  right1 (r1_at ROps c g) (start + step * IZR i) = Ok (val_at vals (Z.min i (zlen vals - 2) + 1)).
Proof.
  intros Hn Hs Hg Hi.
  assert (D : IZR isize_min <= (start + step * IZR i - start) / step < IZR (isize_max + 1)).
  { replace ((start + step * IZR i - start) / step) with (IZR i) by (field; lra).
    split; [apply IZR_le|apply IZR_lt]; unfold isize_min, isize_max in *; lia. }
  destruct (@r1_at_R _ _ _ _ _ _ Hn Hs Hg D) as (e & A & C & X). rewrite floor_node in * by auto.
  replace (Z.min (Z.max i 0) (zlen vals - 2)) with (Z.min i (zlen vals - 2)) in * by lia.
  unfold left1, right1. rewrite A. cbn [bind sextrap sy0 sy1].
  assert (e = Inside).
  { destruct e; simpl in X; auto; exfalso.
    - assert (0 <= IZR i) by (apply (IZR_le 0); lia). nra.
    - assert (IZR i <= IZR (zlen vals - 1)) by (apply IZR_le; lia). nra. }
  subst e. auto.
Qed.

Lemma count_at_node g i : strictly_increasing g -> (0 <= i < zlen g)%Z ->
  count_below ROps (nth (Z.to_nat i) g 0) g = i.
Proof.
  intros Hg Hi. unfold count_below, zlen. rewrite (@filter_split _ _ g (Z.to_nat i)); [lia|unfold zlen in Hi; lia| |].
  - intros j a Hj Ha. simpl. apply Rltb_true. rewrite <- (nth_error_nth _ _ 0 Ha). apply sorted_nth; auto.
    unfold zlen in Hi. lia.
  - intros j a Hj Ha. simpl. apply Rltb_false. rewrite <- (nth_error_nth _ _ 0 Ha).
    assert (j < length g)%nat by (apply nth_error_Some; congruence).
    destruct (Nat.eq_dec j (Z.to_nat i)) as [->|]; [lra|]. left. apply sorted_nth; auto. lia.
Qed.

Theorem C32_proof_rectilinear c grid vals g i : (zlen vals <= isize_max)%Z -> strictly_increasing grid ->
  c1_new grid vals = Ok g -> (0 <= i < zlen vals)%Z ->
  left1 (c1_at ROps c g) (nth (Z.to_nat i) grid 0) = Ok (val_at vals (Z.max (i - 1) 0)) /\
  right1 (c1_at ROps c g) (nth (Z.to_nat i) grid 0) = Ok (val_at vals (Z.max (i - 1) 0 + 1)).
Proof.
  intros Hn Hs Hg Hi. destruct (@c1_at_R c _ _ _ (nth (Z.to_nat i) grid 0) Hn Hs Hg) as (e & A & C & X & L & L2).
  unfold left1, right1. rewrite A. cbn [bind sextrap sy0 sy1].
  unfold clipped_cell. rewrite count_at_node by (auto; lia).
  replace (Z.min (Z.max (i - 1) 0) (zlen grid - 2)) with (Z.max (i - 1) 0) by lia.
  assert (e = Inside).
  { assert (M : forall j k, (0 <= j <= k)%Z -> (k < zlen grid)%Z -> nth (Z.to_nat j) grid 0 <= nth (Z.to_nat k) grid 0).
    { intros j k Hj Hk. destruct (Z.eq_dec j k) as [->|]; [lra|]. left. apply sorted_nth; auto. unfold zlen in *. lia. }
    destruct e; simpl in X; auto; exfalso.
    - specialize (M 0%Z i ltac:(lia) ltac:(lia)). simpl in M. lra.
    - specialize (M i (zlen grid - 1)%Z ltac:(lia) ltac:(lia)). lra. }
  subst e. auto.
Qed.

(** ** Every number type *)
Section Any.
Context {F : Type} (o : Ops F) (c : cfg).

Lemma idx_In A (l : list A) i a : idx l i = Ok a -> In a l.
Proof. unfold idx. destruct (_ && _); [|discriminate]. intros H. apply aget_inv in H. eapply nth_error_In; eauto. Qed.

Definition stored (vals : list F) (at_ : F -> outcome (grid_sample F)) : Prop :=
  forall x s, at_ x = Ok s -> In (sy0 s) vals /\ In (sy1 s) vals.

Lemma r1_stored g : stored (r1_vals g) (r1_at o c g).
Proof.
  intros x s H. unfold r1_at in H. apply bind_ok in H as ((i & e) & _ & H). apply bind_ok in H as (fi & _ & H).
  apply bind_ok in H as (y0 & H0 & H). apply bind_ok in H as (i1 & _ & H). apply bind_ok in H as (y1 & H1 & H).
  inversion H; subst s; clear H. cbn [sy0 sy1]. apply idx_In in H0. apply idx_In in H1. auto.
Qed.
Lemma c1_stored g : stored (c1_vals g) (c1_at o c g).
Proof.
  intros x s H. unfold c1_at in H. apply bind_ok in H as ((i & e) & _ & H). apply bind_ok in H as (x0 & _ & H).
  apply bind_ok in H as (i1 & _ & H). apply bind_ok in H as (x1 & _ & H).
  apply bind_ok in H as (y0 & H0 & H). apply bind_ok in H as (y1 & H1 & H).
  inversion H; subst s; clear H. cbn [sy0 sy1]. apply idx_In in H0. apply idx_In in H1. auto.
Qed.

Lemma stored_results vals at_ x r : stored vals at_ ->
  left1 at_ x = Ok r \/ right1 at_ x = Ok r \/ nearest1 o at_ x = Ok r -> In r vals.
Proof.
  intros S [H|[H|H]]; unfold left1, right1, nearest1 in H; apply bind_ok in H as (s & Hs & H);
    inversion H; subst r; clear H; destruct (S x s Hs); destruct (sextrap s); try destruct (fle _ _ _); auto.
Qed.

Theorem C31_proof_stored_regular start step vals g x r : r1_new o c start step vals = Ok g ->
  left1 (r1_at o c g) x = Ok r \/ right1 (r1_at o c g) x = Ok r \/ nearest1 o (r1_at o c g) x = Ok r -> In r vals.
Proof.
  intros Hg. assert (E : r1_vals g = vals).
  { unfold r1_new in Hg. apply bind_ok in Hg as (m & _ & Hg). apply bind_ok in Hg as (mf & _ & Hg). inversion Hg; reflexivity. }
  rewrite <- E. apply stored_results, r1_stored.
Qed.
Theorem C31_proof_stored_rectilinear grid vals g x r : c1_new grid vals = Ok g ->
  left1 (c1_at o c g) x = Ok r \/ right1 (c1_at o c g) x = Ok r \/ nearest1 o (c1_at o c g) x = Ok r -> In r vals.
Proof.
  intros Hg. assert (E : c1_vals g = vals).
  { unfold c1_new in Hg. destruct (_ || _); [discriminate|]. inversion Hg; reflexivity. }
  rewrite <- E. apply stored_results, c1_stored.
Qed.

(** C30 for every number type, rectilinear grids. *)
Lemma c1_at_any grid vals g x : lt_transitive o -> increasing_grid o grid -> (zlen vals <= isize_max)%Z ->
  c1_new grid vals = Ok g ->
  exists s, c1_at o c g x = Ok s /\ extrap_of o x grid (sextrap s) /\ length grid = length vals /\ (2 <= length grid)%nat /\
   (forall d, sy0 s = nth (Z.to_nat (clipped_cell o x grid)) vals d) /\ (forall d, sy1 s = nth (Z.to_nat (clipped_cell o x grid + 1)) vals d).
Proof.
  intros T I Hn Hg. unfold c1_new in Hg. destruct (_ || _) eqn:Ec; [discriminate|].
  inversion Hg; subst g; clear Hg.
  assert (El : length grid = length vals) by lia. assert (Hl : (2 <= length grid)%nat) by lia.
  assert (P : prefix_true (fun v => flt o v x) grid) by (apply increasing_prefix; auto).
  assert (Hz : (2 <= zlen grid <= isize_max)%Z) by (unfold zlen in *; lia).
  assert (Ez : zlen grid = zlen vals) by (unfold zlen; lia).
  destruct (@c1_index_spec _ o c _ vals x P Hz) as (e & E & Xe).
  destruct (@clipped_bracketing _ _ _ _ P (proj1 Hz)) as (Ri & _). set (i := clipped_cell o x grid) in *.
  destruct grid as [|g0 grid']; [simpl in Hl; lia|]. destruct vals as [|v0 vals']; [simpl in El; lia|].
  set (grid := g0 :: grid') in *. set (vals := v0 :: vals') in *.
  unfold c1_at. rewrite E. cbn [bind c1_grid c1_vals].
  rewrite (@idx_nth _ grid i g0) by lia. cbn [bind].
  rewrite usize_add_ok by (unfold two64, isize_max in *; lia). cbn [bind].
  rewrite (@idx_nth _ grid (i + 1)%Z g0) by lia. cbn [bind].
  rewrite (@idx_nth _ vals i v0) by lia. cbn [bind].
  rewrite (@idx_nth _ vals (i + 1)%Z v0) by lia. cbn [bind].
  eexists. split; [reflexivity|]. cbn [sextrap sy0 sy1]. repeat split; auto; intros; apply nth_indep; unfold zlen in *; lia.
Qed.

Lemma count_low grid x g0 : lt_transitive o -> lt_irreflexive o -> increasing_grid o grid ->
  nth_error grid 0 = Some g0 -> flt o x g0 = true -> count_below o x grid = 0%Z.
Proof.
  intros T Ir I H0 Hx. unfold count_below, zlen. rewrite (@filter_split _ _ grid 0%nat); [lia|lia|intros; lia|].
  intros j a _ Ha. destruct (flt o a x) eqn:E; auto. exfalso.
  assert (flt o a g0 = true) by (eapply T; eauto).
  destruct j as [|j].
  - assert (a = g0) by congruence. subst a. rewrite Ir in H. discriminate.
  - assert (flt o g0 a = true) by (eapply (I 0%nat (S j)); eauto; lia).
    assert (flt o a a = true) by (eapply T; eauto). rewrite Ir in *. discriminate.
Qed.
Lemma count_high grid x gl : lt_transitive o -> increasing_grid o grid ->
  nth_error grid (length grid - 1) = Some gl -> flt o gl x = true -> count_below o x grid = zlen grid.
Proof.
  intros T I H0 Hx. unfold count_below, zlen. rewrite (@filter_split _ _ grid (length grid)); auto.
  - intros j a Hj Ha. destruct (Nat.eq_dec j (length grid - 1)) as [->|]; [congruence|].
    apply (T a gl x); auto. apply (I j (length grid - 1)%nat); auto. lia.
  - intros j a Hj Ha. apply nth_error_None in Hj. congruence.
Qed.

Theorem C30_proof_any grid vals g x d : lt_transitive o -> lt_irreflexive o -> increasing_grid o grid ->
  (zlen vals <= isize_max)%Z -> c1_new grid vals = Ok g ->
  (flt o x (nth 0 grid d) = true -> hold_last1 o c (c1_at o c g) x = Ok (nth 0 vals d)) /\
  (flt o (last grid d) x = true -> hold_last1 o c (c1_at o c g) x = Ok (last vals d)).
Proof.
  intros T Ir I Hn Hg. destruct (@c1_at_any grid vals g x T I Hn Hg) as (s & A & X & El & Hl & Y0 & Y1).
  unfold hold_last1. rewrite A. cbn [bind].
  assert (E0 : nth_error grid 0 = Some (nth 0 grid d)) by (apply nth_error_nth'; lia).
  assert (E1 : nth_error grid (length grid - 1) = Some (last grid d)) by (rewrite last_nth; apply nth_error_nth'; lia).
  assert (X' : match sextrap s with ExtrapLow => flt o x (nth 0 grid d) = true
     | ExtrapHigh => flt o x (nth 0 grid d) = false /\ flt o (last grid d) x = true
     | Inside => flt o x (nth 0 grid d) = false /\ flt o (last grid d) x = false end).
  { unfold extrap_of in X. destruct grid as [|g0 grid']; [simpl in Hl; lia|].
    rewrite last_nth in *. rewrite (nth_indep (g0 :: grid') d g0 (n := length (g0 :: grid') - 1)) by (simpl; lia). exact X. }
  split; intros Hx.
  - assert (C := @count_low _ _ _ T Ir I E0 Hx). unfold clipped_cell in Y0. rewrite C in Y0.
    destruct (sextrap s); [destruct X'; congruence| |destruct X'; congruence].
    rewrite (Y0 d). f_equal. f_equal. unfold zlen. lia.
  - assert (C := @count_high _ _ _ T I E1 Hx). unfold clipped_cell in Y1. rewrite C in Y1.
    assert (N0 : flt o x (nth 0 grid d) = false).
    { destruct (flt o x (nth 0 grid d)) eqn:E; auto. exfalso.
      assert (flt o (nth 0 grid d) (last grid d) = true).
      { apply (I 0%nat (length grid - 1)%nat); auto. lia. }
      assert (flt o x (last grid d) = true) by (eapply T; eauto).
      assert (flt o x x = true) by (eapply T; eauto). rewrite Ir in *. discriminate. }
    destruct (sextrap s); [destruct X'; congruence|congruence|].
    rewrite (Y1 d), last_nth. f_equal. f_equal. unfold zlen. lia.
Qed.
End Any.
