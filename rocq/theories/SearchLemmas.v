(** The bisection ([partition_point]) and the clipping of cell numbers. *)
From Coq Require Import ZifyBool ZifyNat PeanoNat.
From Verif Require Import Base Ops ModelCore Spec CoreLemmas.

Lemma log2_up_half s : (2 <= s)%nat -> Nat.log2_up s = S (Nat.log2_up (s - s / 2)).
Proof.
  intros Hs. assert (D := Nat.div_mod s 2 ltac:(lia)).
  assert (U := Nat.mod_upper_bound s 2 ltac:(lia)).
  set (h := (s - s / 2)%nat). destruct (Nat.eq_dec s 2) as [->|Hne]; [reflexivity|].
  assert (Hh : (2 <= h)%nat) by (unfold h; lia).
  destruct (Nat.log2_up_spec h ltac:(lia)) as (H1 & H2).
  assert (Hb : (0 < Nat.log2_up h)%nat) by (apply Nat.log2_up_pos; lia).
  apply Nat.log2_up_unique; [lia|]. cbn [pred Nat.pow].
  replace (Nat.log2_up h) with (S (pred (Nat.log2_up h))) at 1 by lia. cbn [Nat.pow].
  unfold h in *. lia.
Qed.

(** [pred] holds on a prefix of [l]. *)
Definition prefix_true {A} (p : A -> bool) (l : list A) : Prop :=
  forall i j a b, (i <= j)%nat -> nth_error l i = Some a -> nth_error l j = Some b ->
  p b = true -> p a = true.

Lemma pp_loop_spec A (p : A -> bool) l : forall fuel size base cnt,
  (1 <= size)%nat -> (size <= S fuel)%nat -> (base + size <= length l)%nat ->
  exists b, pp_loop fuel p l size base cnt = Ok (b, (cnt + Nat.log2_up size)%nat) /\
    (base <= b < base + size)%nat /\
    (b = base \/ exists a, nth_error l b = Some a /\ p a = true) /\
    (prefix_true p l -> forall j a, (b < j < base + size)%nat -> nth_error l j = Some a ->
       p a = false).
Proof.
  induction fuel as [|fuel IH]; intros size base cnt H1 H2 H3.
  - replace size with 1%nat by lia. exists base. rewrite Nat.log2_up_1, Nat.add_0_r.
    split; [reflexivity|]. split; [lia|]. split; auto. intros; lia.
  - cbn [pp_loop]. destruct (Nat.leb_spec size 1) as [Hs|Hs].
    + replace size with 1%nat by lia. exists base. rewrite Nat.log2_up_1, Nat.add_0_r.
      split; [reflexivity|]. split; [lia|]. split; auto. intros; lia.
    + set (half := (size / 2)%nat) in *.
      assert (Hh : (1 <= half /\ 2 * half <= size)%nat).
      { unfold half. assert (D := Nat.div_mod size 2 ltac:(lia)).
        assert (U := Nat.mod_upper_bound size 2 ltac:(lia)). lia. }
      destruct (nth_error l (base + half)) as [v|] eqn:Ev.
      2:{ apply nth_error_None in Ev. lia. }
      rewrite (aget_ok _ _ Ev). cbn [bind].
      rewrite (log2_up_half (s := size)) by lia. fold half.
      destruct (p v) eqn:Pv.
      * destruct (IH (size - half)%nat (base + half)%nat (S cnt)) as (b & E & R & P & Q); try lia.
        exists b. rewrite E. split; [do 2 f_equal; lia|]. split; [lia|]. split.
        { right. destruct P as [->|P]; eauto. }
        { intros Hp j a Hj. apply Q; auto. lia. }
      * destruct (IH (size - half)%nat base (S cnt)) as (b & E & R & P & Q); try lia.
        exists b. rewrite E. split; [do 2 f_equal; lia|]. split; [lia|]. split; auto.
        intros Hp j a Hj Ha. destruct (Nat.ltb_spec j (base + (size - half))) as [Hlt|Hge].
        { apply (Q Hp j a); auto; lia. }
        { destruct (p a) eqn:Pa; auto. rewrite <- Pv. symmetry.
          apply (Hp (base + half)%nat j v a); auto; lia. }
Qed.

Lemma partition_point_cnt_spec A (p : A -> bool) l :
  exists q, partition_point_cnt p l = Ok (q, (if (length l =? 0)%nat then 0 else S (Nat.log2_up (length l)))%nat) /\
    (q <= length l)%nat /\
    (prefix_true p l ->
      (forall j a, (j < q)%nat -> nth_error l j = Some a -> p a = true) /\
      (forall j a, (q <= j)%nat -> nth_error l j = Some a -> p a = false)).
Proof.
  unfold partition_point_cnt. destruct l as [|a0 l0].
  { exists 0%nat. split; auto. split; auto. intros _. split; intros j a Hj Ha; destruct j; discriminate. }
  set (l := a0 :: l0). assert (Hl : (1 <= length l)%nat) by (simpl; lia).
  replace (length l =? 0)%nat with false by lia.
  destruct (@pp_loop_spec A p l (length l) (length l) 0 0) as (b & E & R & P & Q); try lia.
  rewrite E. cbn [bind].
  destruct (nth_error l b) as [v|] eqn:Ev; [|apply nth_error_None in Ev; lia].
  rewrite (aget_ok _ _ Ev). cbn [bind]. exists (if p v then S b else b).
  split; [reflexivity|]. split; [destruct (p v); lia|].
  intros Hp. destruct (p v) eqn:Pv; split; intros j a Hj Ha.
  - apply (Hp j b a v); auto. lia.
  - apply (Q Hp j a); auto. assert (j < length l)%nat by (apply nth_error_Some; congruence). lia.
  - destruct P as [->|(a' & Ea & Pa)]; [lia|]. congruence.
  - destruct (Nat.eq_dec j b) as [->|Hne]; [congruence|].
    apply (Q Hp j a); auto. assert (j < length l)%nat by (apply nth_error_Some; congruence). lia.
Qed.

Lemma partition_point_spec A (p : A -> bool) l :
  exists q, partition_point p l = Ok (Z.of_nat q) /\ (q <= length l)%nat /\
    (prefix_true p l ->
      (forall j a, (j < q)%nat -> nth_error l j = Some a -> p a = true) /\
      (forall j a, (q <= j)%nat -> nth_error l j = Some a -> p a = false)).
Proof.
  destruct (partition_point_cnt_spec p l) as (q & E & H). exists q.
  unfold partition_point. rewrite E. auto.
Qed.

Lemma clip_loc_eq FP d i : 0 <= FP <= d -> d <= isize_max ->
  clip_loc FP d i = Z.min (Z.max i 0) (d - FP).
Proof.
  intros H Hd. unfold clip_loc, as_isize, isize_sat_sub, as_usize, two64, isize_min, isize_max in *.
  replace (d <=? 9223372036854775807) with true by lia.
  rewrite Z.mod_small; lia.
Qed.

Lemma as_isize_small u : u <= isize_max -> as_isize u = u.
Proof. unfold as_isize. intros. replace (u <=? isize_max) with true by lia. reflexivity. Qed.
