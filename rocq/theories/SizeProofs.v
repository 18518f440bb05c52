(** The size check of the constructors in every build (C15): the number of values agrees with the
    product of the sizes modulo 2^64. *)
From Coq Require Import ZifyBool ZifyNat PeanoNat.
From Verif Require Import Base Ops ModelCore ModelLinear ModelNearest ModelCubic.
From Verif Require Import Spec CoreLemmas GenLemmas.
Open Scope Z_scope.

Lemma product_mod c dims v : product c dims = Ok v -> v = zprod dims mod two64.
Proof.
  unfold product.
  enough (G : forall a, 0 <= a < two64 -> foldM (fun a d => usize_mul c a d) a dims = Ok v -> v = (a * zprod dims) mod two64).
  { intros H. rewrite (G 1 ltac:(unfold two64; lia) H). f_equal. lia. }
  induction dims as [|d ds IH]; intros a Ha H; cbn [foldM] in H.
  - inversion H; subst. change (zprod []) with 1. rewrite Z.mul_1_r, Z.mod_small; auto.
  - apply bind_ok in H as (b & Hb & H).
    assert (B : 0 <= b < two64 /\ b = (a * d) mod two64).
    { unfold usize_mul, usize_res in Hb. destruct ((0 <=? a * d) && (a * d <? two64)) eqn:E.
      - inversion Hb; subst. rewrite Z.mod_small; lia.
      - destruct (ovf_checks c); inversion Hb; subst. split; auto. apply Z.mod_pos_bound. reflexivity. }
    rewrite (IH b (proj1 B) H), zprod_cons, (proj2 B). rewrite Zmult_mod_idemp_l. f_equal. ring.
Qed.

Ltac size_mod H :=
  apply bind_ok in H as (nv & Hnv & H);
  match type of H with (if ?b then _ else _) = Ok _ => destruct b eqn:E; try discriminate H end;
  apply product_mod in Hnv; subst nv; lia.

Section Sizes.
Context {F : Type} (o : Ops F) (c : cfg) (dims : list Z) (starts steps vals : list F) (grids : list (list F)).

Lemma sizes_regular m lin :
  (forall s, mlr_new o c dims starts steps vals = Ok s -> zlen vals = zprod dims mod two64) /\
  (forall s, mlrr_new o c m dims starts steps vals = Ok s -> zlen vals = zprod dims mod two64) /\
  (forall s, nr_new o c dims starts steps vals = Ok s -> zlen vals = zprod dims mod two64) /\
  (forall s, mcr_new o c dims starts steps vals lin = Ok s -> zlen vals = zprod dims mod two64) /\
  (forall s, mcrr_new o c m dims starts steps vals lin = Ok s -> zlen vals = zprod dims mod two64).
Proof.
  repeat split; intros s H.
  - unfold mlr_new in H. size_mod H.
  - unfold mlrr_new in H. size_mod H.
  - unfold nr_new, mlr_new in H. size_mod H.
  - unfold mcr_new in H. size_mod H.
  - unfold mcrr_new in H. size_mod H.
Qed.
Lemma sizes_rectilinear m lin : let n := zprod (map zlen grids) mod two64 in
  (forall s, mlc_new o c grids vals = Ok s -> zlen vals = n) /\
  (forall s, mlcr_new o c m grids vals = Ok s -> zlen vals = n) /\
  (forall s, nc_new o c grids vals = Ok s -> zlen vals = n) /\
  (forall s, mcc_new o c grids vals lin = Ok s -> zlen vals = n) /\
  (forall s, mccr_new o c m grids vals lin = Ok s -> zlen vals = n).
Proof.
  intros n. unfold n. repeat split; intros s H.
  - unfold mlc_new in H. size_mod H.
  - unfold mlcr_new in H. destruct (_ <? _)%nat; [discriminate|]. size_mod H.
  - unfold nc_new, mlc_new in H. size_mod H.
  - unfold mcc_new in H. size_mod H.
  - unfold mccr_new in H. destruct (_ <? _)%nat; [discriminate|]. size_mod H.
Qed.
End Sizes.
