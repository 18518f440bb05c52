(** One dimension, exact arithmetic: every one-dimensional grid is the only axis of a multilinear
    interpolator, so what holds for those holds for Linear1D. *)
From Coq Require Import Reals Lra Lia ZArith List.
From Verif Require Import Base Ops RInst ModelLinear ModelOneDim Spec SpecReal SpecApprox SpecExtrap SpecMoved Interpolators Spec1D.
From Verif Require Import GenProofs RChar RProofs Approx Extrap CubicMoved OneDimProofs PyProofs.
Import ListNotations.
Unset Implicit Arguments.
Open Scope R_scope.

Definition points_of (a : axis) : list R := map (fun i => coord a (Z.of_nat i)) (seq 0 (Z.to_nat (npts a))).

Lemma points_len a : (0 <= npts a)%Z -> zlen (points_of a) = npts a.
Proof. intros H. unfold zlen, points_of. rewrite map_length, seq_length. lia. Qed.
Lemma points_nth a i : (0 <= i < npts a)%Z -> nth (Z.to_nat i) (points_of a) 0 = coord a i.
Proof.
  intros H. unfold points_of. rewrite nth_indep with (d' := coord a (Z.of_nat 0)) by (rewrite map_length, seq_length; lia).
  rewrite map_nth with (f := fun i => coord a (Z.of_nat i)) (d := 0%nat), seq_nth by lia. f_equal. lia.
Qed.
Lemma points_same a : (0 <= npts a)%Z -> same_axis a (list_axis (points_of a)).
Proof. intros H. split; [simpl; rewrite points_len; auto|]. intros i Hi. simpl. rewrite points_nth; auto. Qed.
Lemma points_sorted a : increasing_axis a -> strictly_increasing (points_of a).
Proof.
  intros G. unfold points_of, strictly_increasing.
  assert (H : forall n k, (Z.of_nat (k + n) <= npts a)%Z ->
    Sorted.StronglySorted Rlt (map (fun i => coord a (Z.of_nat i)) (seq k n))).
  { induction n as [|n IH]; intros k Hk; simpl; constructor; [apply IH; lia|].
    rewrite Forall_map, Forall_forall. intros j Hj. apply in_seq in Hj. apply G; lia. }
  destruct (Z_lt_le_dec (npts a) 0) as [N|N]; [replace (Z.to_nat (npts a)) with 0%nat by lia; constructor|apply H; lia].
Qed.

Lemma grid1_facts c vals a dom at_ : grid1 c vals a dom at_ ->
  npts a = zlen vals /\ good_axis 2 a /\ (zlen vals <= isize_max)%Z.
Proof.
  intros H. destruct H as [start step g Hn Hs Hg|grid g Hn Hs Hg].
  - split; [reflexivity|]. split; [split; [apply reg_axis_inc; auto|simpl; lia]|lia].
  - destruct (@c1_at_R c _ _ _ 0 Hn Hs Hg) as (e & H1 & H2 & H3 & H4 & H5).
    split; [simpl; auto|]. split; [split; [apply list_axis_inc; auto|simpl; lia]|auto].
Qed.

(** The one-axis interpolator. *)
Lemma bridge c c' vals a dom at_ : grid1 c vals a dom at_ ->
  exists s, mlc_new ROps c' [points_of a] vals = Ok s /\
    multilinear c' vals [list_axis (points_of a)] everywhere (mlc_interp_one ROps c' s) /\
    same_axis a (list_axis (points_of a)) /\
    forall x, dom x -> linear1 ROps c at_ x = mlc_interp_one ROps c' s [x].
Proof.
  intros H. destruct (grid1_facts _ _ _ _ _ H) as (N & (G & G2) & L).
  assert (Z0 : zlen (points_of a) = npts a) by (apply points_len; lia).
  assert (P2 : (isize_max < two64)%Z) by (vm_compute; reflexivity).
  assert (S : Forall strictly_increasing [points_of a]) by (constructor; [apply points_sorted; auto|constructor]).
  assert (F2 : Forall (fun g : list R => (2 <= length g)%nat) [points_of a]) by (constructor; [unfold zlen in Z0; lia|constructor]).
  assert (I : rect_input c' [points_of a] vals).
  { split; [simpl; lia|]. split; [auto|]. right. simpl. rewrite Z0. lia. }
  assert (E : mlc_new ROps c' [points_of a] vals = Ok (mkRect [points_of a] (map zlen [points_of a]) vals)).
  { eapply accept3; [apply new_checks_mlc|..].
    - unfold prefix_products_fit. intros k. destruct k as [|k]; [|cbn [map firstn]; rewrite firstn_nil]; simpl; rewrite ?Z0; lia.
    - simpl. rewrite Z0. lia.
    - constructor; [lia|constructor].
    - apply inc_first_two; auto. }
  assert (M : multilinear c' vals [list_axis (points_of a)] everywhere (mlc_interp_one ROps c' (mkRect [points_of a] (map zlen [points_of a]) vals)))
    by (apply (@multilinear_rectilinear c' vals [points_of a]); auto).
  assert (SA : same_axis a (list_axis (points_of a))) by (apply points_same; lia).
  eexists. split; [exact E|]. split; [exact M|]. split; [exact SA|].
  intros x D. eapply C29_proof; eauto. exact Logic.I.
Qed.
